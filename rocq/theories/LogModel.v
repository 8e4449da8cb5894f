(** Model of the logging (ecal/core/src/logging/ecal_log_impl.cpp and .h), of the log filters of
    the configuration (ecal/core/src/config/configuration_to_yaml.cpp 21-55,
    default_configuration.cpp 18-44) and of the log sinks' configuration (config/ecal_config.cpp
    87-89, include/ecal/config/logging.h).

    All calls but Start are serialised by m_log_mtx, and are one step each.  The clock, the
    presence of the log directory and the success of fopen are given.  Simplified: while Start
    replaces the receiver, old and new one live for a moment; host, process id and process name
    are those of the process from the beginning; writing to an open file succeeds. *)
From Verif Require Import Base Sample PbModel SerModel UdpModel.
From Verif Require McModel.

(** ** Configuration *)
(** Sinks::Console/File/UDP::Configuration, include/ecal/config/logging.h 44-72; the filter is a
    char, here -128..127. *)
Record sink := Sink { sk_enable : bool; sk_mask : Z }.
Record lcfg := LCfg { lc_con : sink; lc_file : sink; lc_udp : sink; lc_network : bool }.
(** GetConsoleLogFilter, GetFileLogFilter, GetUdpLogFilter, ecal_config.cpp 87-89. *)
Definition filter_of (k : sink) : Z := sk_mask k.

(** ecal_log_level.h 34-46 *)
Definition level_name (l : Z) : text :=
  if (l =? 1)%Z then str "info" else if (l =? 2)%Z then str "warning" else if (l =? 4)%Z then str "error"
  else if (l =? 8)%Z then str "fatal" else if (l =? 16)%Z then str "debug1" else if (l =? 32)%Z then str "debug2"
  else if (l =? 64)%Z then str "debug3" else if (l =? 128)%Z then str "debug4" else [].

(** Conversion to char, signed on the supported platforms. *)
Definition to_char (z : Z) : Z := ((z + 128) mod 256 - 128)%Z.

(** ParseLogLevel, configuration_to_yaml.cpp 21-39. *)
Definition level_words : list (text * Z) :=
  [(str "all", 255%Z); (str "info", 1%Z); (str "warning", 2%Z); (str "error", 4%Z); (str "fatal", 8%Z);
   (str "debug1", 16%Z); (str "debug2", 32%Z); (str "debug3", 64%Z); (str "debug4", 128%Z)].
Definition parse_word (m : Z) (w : text) : Z :=
  fold_left (fun m p => if eqb w (fst p) then to_char (Z.lor m (snd p)) else m) level_words m.
Definition parse_levels (ws : list text) : Z := fold_left parse_word ws 0%Z.
(** LogLevelToVector, configuration_to_yaml.cpp 41-55. *)
Definition levels_to_words (mask : Z) : list text :=
  map fst (filter (fun p => negb (Z.land mask (snd p) =? 0)%Z) level_words).
(** logToArray, default_configuration.cpp 18-44: the entries of the array (its quotes, commas
    and brackets left out). *)
Definition levels_to_array (mask : Z) : list text :=
  let ws := map fst (filter (fun p => negb (Z.land mask (snd p) =? 0)%Z) (tl level_words)) in
  match ws with
  | [] => if (Z.land mask 255 =? 0)%Z then [] else [str "all"]
  | _ => ws
  end.

(** ** The object *)
Record ident := Ident { id_host : text; id_pid : Z; id_pname : text }.
Record clog := CLog {
  lo_created : bool;                  (* m_created *)
  lo_level : Z;                       (* m_level *)
  lo_con : Z; lo_file : Z; lo_udp : Z;   (* m_filter_mask_con, _file, _udp *)
  lo_handle : option text;            (* m_logfile: the name of the open file *)
  lo_sender : bool;                   (* m_udp_logging_sender is set *)
  lo_rx : option rx_state;            (* m_log_receiver *)
  lo_network : bool;                  (* Config::IsNetworkEnabled() *)
  lo_queue : list logmsg;             (* m_log_msglist *)
  lo_unit : text;                     (* Process::GetUnitName() *)
  lo_files : list (text * text) }.    (* the log files of this process: name, content *)
(** Constructor, lines 98-107. *)
Definition log0 (unit : text) : clog := CLog false 0 15 63 63 None false None false [] unit [].

(** Text of an int64_t. *)
Definition long_text (z : Z) : text :=
  if (z <? 0)%Z then 45%Z :: McModel.decimal 20 (- z) [] else McModel.decimal 20 z [].
Definition bar : text := str " | ".
(** Lines 215-256 without the line feed; t in nanoseconds. *)
Definition log_line (me : ident) (unit : text) (t level : Z) (msg : text) : text :=
  long_text (Z.quot t 1000000) ++ str " ms" ++ bar ++ id_host me ++ bar ++ unit ++ bar ++
  long_text (id_pid me) ++ bar ++ level_name level ++ bar ++ msg.
(** fprintf("%s\n", ...): up to the first zero byte. *)
Fixpoint upto_zero (s : text) : text :=
  match s with [] => [] | c :: s' => if (c =? 0)%Z then [] else c :: upto_zero s' end.
(** Line 135: the name of the log file. *)
Definition log_name (me : ident) (unit dir stamp : text) : text :=
  dir ++ stamp ++ str "_" ++ unit ++ str "_" ++ long_text (id_pid me) ++ str ".log".
(** Lines 265-272. *)
Definition log_message (me : ident) (unit : text) (t level : Z) (msg : text) : logmsg :=
  LogMsg (Z.quot t 1000) (id_host me) (id_pid me) (id_pname me) unit level msg.
Definition log_topic : text := str "_log_message_".

Inductive lop :=
| LStart (c : lcfg) (dir : option text) (stamp : text) (opened : bool)
    (* dir: GeteCALLogPath() if it is a directory; stamp: get_time_str(); opened: fopen succeeds *)
| LStop
| LSetLevel (l : Z)
| LLog (l : Z) (msg : text) (t : Z)
| LLogCurrent (msg : text) (t : Z)
| LFetch                             (* GetLogging(SLogging&) *)
| LFetchBuffer                       (* GetLogging(std::string&) *)
| LArrive (bs : list Z)              (* a datagram arrives at the receiver *)
| LUnit (u : text).                  (* SetUnitName *)
Inductive lev :=
| EConsole (msg : text)
| EFile (name line : text)
| ESend (bs : list Z)                (* a datagram is sent *)
| EFetched (l : list logmsg)
| EBuffer (bs : list Z).

Definition set_file (n content : text) (l : list (text * text)) : list (text * text) := aset n content l.
(** CLog::Start, lines 114-166. *)
Definition log_start (me : ident) (c : lcfg) (dir : option text) (stamp : text) (opened : bool) (s : clog) : clog :=
  let con := filter_of (lc_con c) in let file := filter_of (lc_file c) in let udp := filter_of (lc_udp c) in
  let with_file h fs :=
    CLog true 1 con file udp h (if (udp =? 0)%Z then lo_sender s else true) (Some Listening) (lc_network c) (lo_queue s) (lo_unit s) fs in
  if (file =? 0)%Z then with_file (lo_handle s) (lo_files s)
  else match dir with
       | None => CLog (lo_created s) 1 con file udp (lo_handle s) (lo_sender s) (lo_rx s) (lc_network c) (lo_queue s) (lo_unit s) (lo_files s)
       | Some d =>
           let n := log_name me (lo_unit s) d stamp in
           if opened then with_file (Some n) (set_file n [] (lo_files s)) else with_file None (lo_files s)
       end.
(** CLog::Stop, lines 168-180; the receiver goes on. *)
Definition log_stop (s : clog) : clog :=
  if lo_created s
  then CLog false (lo_level s) (lo_con s) (lo_file s) (lo_udp s) None false (lo_rx s) (lo_network s) (lo_queue s) (lo_unit s) (lo_files s)
  else s.
(** CLog::Log(level, msg), lines 194-279. *)
Definition log_do (me : ident) (l : Z) (msg : text) (t : Z) (s : clog) : clog * list lev :=
  if (negb (lo_created s) || match msg with [] => true | _ => false end)%bool then (s, [])
  else
    let con := to_char (Z.land l (lo_con s)) in
    let file := to_char (Z.land l (lo_file s)) in
    let udp := to_char (Z.land l (lo_udp s)) in
    if (Z.lor (Z.lor con file) udp =? 0)%Z then (s, [])
    else
      let e1 := if (con =? 0)%Z then [] else [EConsole msg] in
      let (fs, e2) :=
        match (file =? 0)%Z, lo_handle s with
        | false, Some n =>
            let line := upto_zero (log_line me (lo_unit s) t l msg) in
            (set_file n ((match aget n (lo_files s) with Some x => x | None => [] end) ++ line ++ [10%Z]) (lo_files s), [EFile n line])
        | _, _ => (lo_files s, [])
        end in
      let e3 := if ((udp =? 0)%Z || negb (lo_sender s))%bool then []
                else [ESend (datagram log_topic (ser_log (log_message me (lo_unit s) t l msg)))] in
      (CLog (lo_created s) (lo_level s) (lo_con s) (lo_file s) (lo_udp s) (lo_handle s) (lo_sender s) (lo_rx s) (lo_network s) (lo_queue s) (lo_unit s) fs,
       e1 ++ e2 ++ e3).
(** CLog::HasSample, lines 312-315. *)
Definition log_has (n : text) : bool := eqb n log_topic.
(** CLog::ApplySample, lines 317-333. *)
Definition log_apply (me : ident) (network : bool) (q : list logmsg) (bs : list Z) : list logmsg :=
  match de_log bs with
  | Ok m => if (eqb (id_host me) (lg_hname m) || network)%bool then q ++ [m] else q
  | _ => q
  end.
Definition set_queue (q : list logmsg) (s : clog) : clog :=
  CLog (lo_created s) (lo_level s) (lo_con s) (lo_file s) (lo_udp s) (lo_handle s) (lo_sender s) (lo_rx s) (lo_network s) q (lo_unit s) (lo_files s).

Definition log_step (me : ident) (op : lop) (s : clog) : clog * list lev :=
  match op with
  | LStart c d st o => (log_start me c d st o s, [])
  | LStop => (log_stop s, [])
  | LSetLevel l => (CLog (lo_created s) l (lo_con s) (lo_file s) (lo_udp s) (lo_handle s) (lo_sender s) (lo_rx s) (lo_network s) (lo_queue s) (lo_unit s) (lo_files s), [])
  | LLog l msg t => log_do me l msg t s
  | LLogCurrent msg t => log_do me (lo_level s) msg t s          (* 281-284 *)
  | LFetch => (set_queue [] s, [EFetched (lo_queue s)])          (* 301-310 *)
  | LFetchBuffer => (set_queue [] s, [EBuffer (ser_logs (lo_queue s))])   (* 286-299 *)
  | LArrive bs =>
      match lo_rx s with
      | None => (s, [])
      | Some r =>
          let (r', got) := rx_step log_has (RxArrive bs) r in
          (CLog (lo_created s) (lo_level s) (lo_con s) (lo_file s) (lo_udp s) (lo_handle s) (lo_sender s) (Some r') (lo_network s)
             (fold_left (log_apply me (lo_network s)) got (lo_queue s)) (lo_unit s) (lo_files s), [])
      end
  | LUnit u => (CLog (lo_created s) (lo_level s) (lo_con s) (lo_file s) (lo_udp s) (lo_handle s) (lo_sender s) (lo_rx s) (lo_network s) (lo_queue s) u (lo_files s), [])
  end.
Fixpoint log_run (me : ident) (ops : list lop) (s : clog) : clog * list lev :=
  match ops with
  | [] => (s, [])
  | op :: ops' => let (s1, e1) := log_step me op s in let (s2, e2) := log_run me ops' s1 in (s2, e1 ++ e2)
  end.
