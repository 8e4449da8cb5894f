(** What a process says of itself: its id, names, parameters and state, and the registration
    samples made of them.

    Modelled: ecal/core/src/ecal_process.cpp 95-109, 231-267, 292-300, 614-621, 711-767 and
    920-985 (the Linux branches), ecal_global_accessors.cpp 33-87 (the global variables and
    SetGlobalUnitName), ecal.cpp 133-147 and 175-184,
    registration/ecal_process_registration.cpp 33-110.

    The operating system is a record of what it would answer; it may change at any time.
    Simplified: except for [idr_step] below, calls are made one after the other; messages on
    std::cerr and DumpConfig's other lines are left out; a file read to its end gives all its
    bytes; gethostname never cuts a name (1024 bytes are more than any system allows). *)
From Verif Require Import Base Sample.
From Verif Require McModel SpnModel.

(** std::to_string(int). *)
Definition prc_number (z : Z) : text :=
  if (z <? 0)%Z then 45%Z :: McModel.to_string (- z) else McModel.to_string z.

(** ** The operating system and the configuration *)
Inductive sync_kind := KindNone | KindRealtime | KindReplay.
Record osys := Osys {
  o_host : option text;                      (* gethostname; None: it fails *)
  o_exe : option text;                       (* where /proc/self/exe leads; None: readlink fails *)
  o_cmdline : option text;                   (* the bytes of /proc/self/cmdline; None: cannot be opened *)
  o_group : text;                            (* Config::GetHostGroupName *)
  o_gate : option (bool * sync_kind * text); (* the time gate: synchronised, mode, module name *)
  o_version : text }.                        (* GetVersionString *)

(** ** The variables of the process, ecal_global_accessors.cpp 36-52 *)
Record self := Self {
  z_os : osys;
  z_pid : Z;              (* getpid() *)
  z_host : text; z_unit : text; z_task : list text;
  z_name : text; z_par : text; z_id : Z; z_id_s : text; z_info : text;
  z_sev : Z; z_level : Z;
  z_comps : Z }.          (* CGlobals::components, ecal_globals.cpp 38 and 231; 0 without CGlobals *)

(** Static initialisation, ecal_global_accessors.cpp 36-52; severity unknown 0, level 1. *)
Definition self0 (o : osys) (pid : Z) : self := Self o pid [] [] [] [] [] 0 [] [] 0 1 0.

Definition put_host (v : text) (s : self) : self :=
  Self (z_os s) (z_pid s) v (z_unit s) (z_task s) (z_name s) (z_par s) (z_id s) (z_id_s s) (z_info s) (z_sev s) (z_level s) (z_comps s).
Definition put_unit (v : text) (s : self) : self :=
  Self (z_os s) (z_pid s) (z_host s) v (z_task s) (z_name s) (z_par s) (z_id s) (z_id_s s) (z_info s) (z_sev s) (z_level s) (z_comps s).
Definition put_name (v : text) (s : self) : self :=
  Self (z_os s) (z_pid s) (z_host s) (z_unit s) (z_task s) v (z_par s) (z_id s) (z_id_s s) (z_info s) (z_sev s) (z_level s) (z_comps s).
Definition put_par (v : text) (s : self) : self :=
  Self (z_os s) (z_pid s) (z_host s) (z_unit s) (z_task s) (z_name s) v (z_id s) (z_id_s s) (z_info s) (z_sev s) (z_level s) (z_comps s).
Definition put_id (i : Z) (t : text) (s : self) : self :=
  Self (z_os s) (z_pid s) (z_host s) (z_unit s) (z_task s) (z_name s) (z_par s) i t (z_info s) (z_sev s) (z_level s) (z_comps s).
Definition put_state (sev level : Z) (info : text) (s : self) : self :=
  Self (z_os s) (z_pid s) (z_host s) (z_unit s) (z_task s) (z_name s) (z_par s) (z_id s) (z_id_s s) info sev level (z_comps s).
Definition put_comps (c : Z) (s : self) : self :=
  Self (z_os s) (z_pid s) (z_host s) (z_unit s) (z_task s) (z_name s) (z_par s) (z_id s) (z_id_s s) (z_info s) (z_sev s) (z_level s) c.
Definition put_os (o : osys) (s : self) : self :=
  Self o (z_pid s) (z_host s) (z_unit s) (z_task s) (z_name s) (z_par s) (z_id s) (z_id_s s) (z_info s) (z_sev s) (z_level s) (z_comps s).
Definition put_pid (p : Z) (s : self) : self :=
  Self (z_os s) p (z_host s) (z_unit s) (z_task s) (z_name s) (z_par s) (z_id s) (z_id_s s) (z_info s) (z_sev s) (z_level s) (z_comps s).

(** ** The id *)
(** create_proc_id, ecal_process.cpp 614-621. *)
Definition create_proc_id (s : self) : self :=
  if (z_id s =? 0)%Z then put_id (z_pid s) (prc_number (z_pid s)) s else s.
(** GetProcessID, 711-715. *)
Definition ask_id (s : self) : Z * self := let s := create_proc_id s in (z_id s, s).
(** GetProcessIDAsString, 717-721. *)
Definition ask_id_text (s : self) : text * self := let s := create_proc_id s in (z_id_s s, s).

(** ** The names *)
(** GetHostName, 231-246. *)
Definition ask_host (s : self) : text * self :=
  let s := match z_host s with
           | [] => match o_host (z_os s) with Some h => put_host h s | None => s end
           | _ => s
           end in
  (z_host s, s).
(** GetHostGroupName, 248-251. *)
Definition ask_group (s : self) : text * self :=
  match o_group (z_os s) with [] => ask_host s | g => (g, s) end.
(** PATH_MAX of linux/limits.h. *)
Definition path_max : nat := Z.to_nat 4096.
(** GetProcessName, 728-767: readlink cuts at the size of the buffer. *)
Definition ask_name (s : self) : text * self :=
  match z_name s with
  | [] => match o_exe (z_os s) with
          | None => ([], s)
          | Some p => let s := put_name (firstn path_max p) s in (z_name s, s)
          end
  | n => (n, s)
  end.
(** The part behind the last '/', ecal_global_accessors.cpp 81-85: rfind and substr. *)
Fixpoint behind_slash (t : text) : option text :=
  match t with
  | [] => None
  | c :: t' => match behind_slash t' with
               | Some r => Some r
               | None => if (c =? 47)%Z then Some t' else None
               end
  end.
(** SetGlobalUnitName, ecal_global_accessors.cpp 60-87. *)
Definition set_global_unit (u : option text) (s : self) : self :=
  let s := match u with Some n => put_unit n s | None => s end in
  match z_unit s with
  | [] => let (n, s) := ask_name s in put_unit (match behind_slash n with Some r => r | None => n end) s
  | _ => s
  end.
(** SetUnitName, ecal.cpp 175-184. *)
Definition set_unit (u : option text) (s : self) : Z * self :=
  match u with
  | None => ((-1)%Z, s)
  | Some [] => ((-1)%Z, s)
  | Some n => (0%Z, put_unit n s)
  end.

(** ** The parameters *)
(** GetTaskParameter, ecal_process.cpp 258-267; g_task_parameter is written nowhere. *)
Fixpoint task_line (sep : text) (line : text) (ps : list text) : text :=
  match ps with
  | [] => line
  | p :: ps' => task_line sep ((match line with [] => [] | _ => line ++ sep end) ++ p) ps'
  end.
Definition ask_task (sep : text) (s : self) : text := task_line sep [] (z_task s).
(** GetProcessParameter, 768-985; [SpnModel.process_parameter] is lines 933-980. *)
Definition ask_par (s : self) : text * self :=
  match z_par s with
  | [] => match o_cmdline (z_os s) with
          | None => ([], s)
          | Some b => let s := put_par (SpnModel.process_parameter b) s in (z_par s, s)
          end
  | p => (p, s)
  end.

(** ** The state *)
(** SetState, 292-300. *)
Definition set_state (sev level : Z) (info : option text) (s : self) : self :=
  put_state sev level (match info with Some i => i | None => z_info s end) s.
(** Initialize, ecal.cpp 133-147 with ecal_globals.cpp 231: only the unit name and the
    components; a null name is not handed on. *)
Definition start_up (u : option text) (comps : Z) (s : self) : self :=
  let s := match u with Some _ => set_global_unit u s | None => s end in
  put_comps (Z.lor (z_comps s) comps) s.
(** The last Finalize deletes CGlobals, ecal.cpp 192-201: a new one starts without components. *)
Definition shut_down (s : self) : self := put_comps 0 s.

(** ** The registration samples *)
(** static_cast<int32_t> of an unsigned int. *)
Definition to_int32 (z : Z) : Z := if (z <? 2147483648)%Z then z else (z - 4294967296)%Z.
(** ecal_process_registration.cpp 83-88; the bits are those of ecal_init.h 31-36. *)
Definition bit_text (mask bit : Z) (t : text) : text := if (Z.land mask bit =? 0)%Z then [] else t.
Definition component_text (mask : Z) : text :=
  tl (bit_text mask 1 (str "|pub") ++ bit_text mask 2 (str "|sub")
      ++ bit_text mask 16 (str "|log") ++ bit_text mask 32 (str "|time")).
(** 50-78: tsync_none 0, tsync_realtime 1, tsync_replay 2. *)
Definition sync_of (g : option (bool * sync_kind * text)) : Z * text :=
  match g with
  | None => (0%Z, [])
  | Some (false, _, n) => (0%Z, n)
  | Some (true, KindRealtime, n) => (1%Z, n)
  | Some (true, KindReplay, n) => (2%Z, n)
  | Some (true, KindNone, n) => (0%Z, n)
  end.
(** GetProcessRegisterSample, 33-94. *)
Definition register_sample (s : self) : sample * self :=
  let (host, s) := ask_host s in
  let (id, s) := ask_id s in
  let (group, s) := ask_group s in
  let (name, s) := ask_name s in
  let unit_ := z_unit s in
  let (par, s) := ask_par s in
  let sync := sync_of (o_gate (z_os s)) in
  (Sample [] id host bct_reg_process [] []
     (Process 0 group name unit_ par (z_sev s) (z_level s) (z_info s) (fst sync) (snd sync)
        (to_int32 (z_comps s)) (component_text (z_comps s)) (o_version (z_os s)))
     service0 client0 topic0, s).
(** GetProcessUnregisterSample, 96-110; the default values of Registration::Process are zero
    and empty. *)
Definition unregister_sample (s : self) : sample * self :=
  let (host, s) := ask_host s in
  let (id, s) := ask_id s in
  let (name, s) := ask_name s in
  (Sample [] id host bct_unreg_process [] []
     (Process 0 [] name (z_unit s) [] 0 0 [] 0 [] 0 [] []) service0 client0 topic0, s).

(** ** What happens to a process *)
Inductive pact :=
| Change (o : osys)                        (* the operating system answers differently from now on *)
| Forked (pid : Z)                         (* from here on the child is watched *)
| StartUp (u : option text) (comps : Z) | ShutDown
| SetUnit (u : option text)
| SetState (sev level : Z) (info : option text)
| AskId | AskIdText | AskHost | AskGroup | AskName | AskUnit | AskTask (sep : text) | AskPar
| Register | Unregister.
Inductive saying := Quiet | Number (z : Z) | Words (t : text) | Says (m : sample).
Definition said_words (r : text * self) : saying * self := (Words (fst r), snd r).
Definition said_number (r : Z * self) : saying * self := (Number (fst r), snd r).
Definition said_sample (r : sample * self) : saying * self := (Says (fst r), snd r).
Definition p_step (a : pact) (s : self) : saying * self :=
  match a with
  | Change o => (Quiet, put_os o s)
  | Forked pid => (Quiet, put_pid pid s)
  | StartUp u c => (Quiet, start_up u c s)
  | ShutDown => (Quiet, shut_down s)
  | SetUnit u => said_number (set_unit u s)
  | SetState sev level info => (Quiet, set_state sev level info s)
  | AskId => said_number (ask_id s)
  | AskIdText => said_words (ask_id_text s)
  | AskHost => said_words (ask_host s)
  | AskGroup => said_words (ask_group s)
  | AskName => said_words (ask_name s)
  | AskUnit => (Words (z_unit s), s)                 (* GetUnitName, 253-256 *)
  | AskTask sep => (Words (ask_task sep s), s)
  | AskPar => said_words (ask_par s)
  | Register => said_sample (register_sample s)
  | Unregister => said_sample (unregister_sample s)
  end.
Definition p_run (l : list pact) (s : self) : self := fold_left (fun s a => snd (p_step a s)) l s.
(** What is said by [a] after [l]. *)
Definition p_says (l : list pact) (a : pact) (s : self) : saying := fst (p_step a (p_run l s)).

(** ** The size of a buffer in words, GetBufferStr, ecal_process.cpp 95-109.  C++ division cuts
    towards zero; only positive sizes are divided. *)
Definition buffer_parts (size : Z) : Z * text :=
  let (size, unit_) := if (1024 <? size)%Z then ((size / 1024)%Z, str "kByte") else (size, str "byte") in
  if (1024 <? size)%Z then ((size / 1024)%Z, str "MByte") else (size, unit_).
Definition buffer_text (size : Z) : text :=
  prc_number (fst (buffer_parts size)) ++ [32%Z] ++ snd (buffer_parts size).

(** ** Several threads asking for the id as text at once
    No lock protects create_proc_id (614-621): testing, writing the number, writing the text and
    reading the text are steps of their own. *)
Inductive idr_phase := IdTest | IdNumber | IdText | IdRead | IdGot (t : text).
Record idr := Idr { i_pid : Z; i_id : Z; i_text : text; i_threads : list idr_phase }.
Definition idr0 (pid : Z) (n : nat) : idr := Idr pid 0 [] (repeat IdTest n).
Fixpoint set_nth {A} (k : nat) (v : A) (l : list A) : list A :=
  match l, k with
  | [], _ => []
  | _ :: l', O => v :: l'
  | x :: l', S k' => x :: set_nth k' v l'
  end.
(** Thread [k] does its next step. *)
Definition idr_step (k : nat) (s : idr) : idr :=
  let go p := set_nth k p (i_threads s) in
  match nth_error (i_threads s) k with
  | Some IdTest => Idr (i_pid s) (i_id s) (i_text s) (go (if (i_id s =? 0)%Z then IdNumber else IdRead))
  | Some IdNumber => Idr (i_pid s) (i_pid s) (i_text s) (go IdText)
  | Some IdText => Idr (i_pid s) (i_id s) (prc_number (i_id s)) (go IdRead)
  | Some IdRead => Idr (i_pid s) (i_id s) (i_text s) (go (IdGot (i_text s)))
  | _ => s
  end.
Definition idr_run (l : list nat) (s : idr) : idr := fold_left (fun s k => idr_step k s) l s.
