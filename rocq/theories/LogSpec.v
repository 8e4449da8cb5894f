(** Vocabulary for the logging. *)
From Verif Require Import Base Sample PbModel SerModel UdpModel LogModel.

(** A level is enabled by a filter: they have a bit in common. *)
Definition enabled (mask level : Z) : Prop := exists k, (0 <= k < 8)%Z /\ Z.testbit mask k = true /\ Z.testbit level k = true.
(** Values of a level and of a filter. *)
Definition is_level (l : Z) : Prop := (0 <= l < 256)%Z.
Definition is_filter (m : Z) : Prop := (-128 <= m < 128)%Z.

(** Start finds the log directory, if it needs it, and can open the file. *)
Definition finds (op : lop) : Prop :=
  match op with LStart c d _ o => sk_mask (lc_file c) = 0%Z \/ (d <> None /\ o = true) | _ => True end.
(** The configuration in effect after a history; None: not started, or stopped. *)
Definition in_effect (ops : list lop) : option lcfg :=
  fold_left (fun a op => match op with LStart c _ _ _ => Some c | LStop => None | _ => a end) ops None.
(** The level of messages without a level of their own: info after a start, then as set. *)
Definition level_in_force (ops : list lop) : Z :=
  fold_left (fun a op => match op with LStart _ _ _ _ => 1%Z | LSetLevel l => l | _ => a end) ops 0%Z.
(** The unit name after a history. *)
Definition unit_after (u : text) (ops : list lop) : text :=
  fold_left (fun a op => match op with LUnit u => u | _ => a end) ops u.
(** Everything handed out by fetches, in order. *)
Definition fetched (tr : list lev) : list logmsg := flat_map (fun e => match e with EFetched l => l | _ => [] end) tr.
(** A start after which there is a receiver. *)
Definition begins (op : lop) : bool :=
  match op with LStart c d _ _ => (sk_mask (lc_file c) =? 0)%Z || match d with Some _ => true | None => false end | _ => false end.
(** The messages accepted from the network: from the first datagram after a start until the first damaged one,
    those which are readable and come from this host, or from any host with a network. *)
Record ear := Ear { ea_open : bool; ea_net : bool; ea_heard : list logmsg }.
Definition hear (me : ident) (e : ear) (op : lop) : ear :=
  match op with
  | LStart c _ _ _ => Ear (begins op || ea_open e) (lc_network c) (ea_heard e)
  | LArrive bs =>
      if ea_open e then
        match receive bs with
        | RxSample n p =>
            if eqb n (str "_log_message_") then
              match de_log p with
              | Ok m => if (ea_net e || eqb (lg_hname m) (id_host me))%bool then Ear true (ea_net e) (ea_heard e ++ [m]) else e
              | _ => e
              end
            else e
        | _ => Ear false (ea_net e) (ea_heard e)
        end
      else e
  | _ => e
  end.
Definition heard (me : ident) (ops : list lop) : list logmsg := ea_heard (fold_left (hear me) ops (Ear false false [])).

(** The receiver listens; the network mode of the last start. *)
Definition listens (me : ident) (ops : list lop) : bool := ea_open (fold_left (hear me) ops (Ear false false [])).
Definition with_network (ops : list lop) : bool := fold_left (fun a op => match op with LStart c _ _ _ => lc_network c | _ => a end) ops false.
(** Not a fetch in serialized form. *)
Definition no_buffer (op : lop) : Prop := op <> LFetchBuffer.

(** ** The log file *)
(** The lines written. *)
Definition filed (tr : list lev) : list text := flat_map (fun e => match e with EFile _ l => [l] | _ => [] end) tr.
(** Lines of a text: each ends with a line feed. *)
Fixpoint lines_go (cur s : text) : list text :=
  match s with
  | [] => []
  | c :: s' => if (c =? 10)%Z then cur :: lines_go [] s' else lines_go (cur ++ [c]) s'
  end.
Definition lines (s : text) : list text := lines_go [] s.
(** The line of a message. *)
Record entry := Entry { en_ms : Z; en_host : text; en_unit : text; en_pid : Z; en_level : Z; en_msg : text }.
Definition line_of (e : entry) : text :=
  long_text (en_ms e) ++ str " ms | " ++ en_host e ++ str " | " ++ en_unit e ++ str " | " ++ long_text (en_pid e) ++
  str " | " ++ level_name (en_level e) ++ str " | " ++ en_msg e.
(** No line feed and no zero byte; no bar. *)
Definition one_line (s : text) : Prop := ~ In 10%Z s /\ ~ In 0%Z s.
Definition no_bar (s : text) : Prop := ~ In 124%Z s.
Definition named_level (l : Z) : Prop := In l [1; 2; 4; 8; 16; 32; 64; 128]%Z.
Definition plain_entry (e : entry) : Prop :=
  (0 <= en_ms e < 10 ^ 19)%Z /\ (0 <= en_pid e < 10 ^ 19)%Z /\ no_bar (en_host e) /\ no_bar (en_unit e) /\
  one_line (en_host e) /\ one_line (en_unit e) /\ one_line (en_msg e) /\ named_level (en_level e).
(** The entries a history writes to its file, between the start and the end. *)
Definition entry_of (me : ident) (unit : text) (t l : Z) (msg : text) : entry := Entry (t / 1000000) (id_host me) unit (id_pid me) l msg.
(** Messages, one after the other. *)
Definition logs (l : list (Z * text * Z)) : list lop := map (fun m => LLog (fst (fst m)) (snd (fst m)) (snd m)) l.

(** ** Filters of the configuration *)
(** The word of a bit. *)
Definition word_of (k : Z) : text :=
  nth (Z.to_nat k) [str "info"; str "warning"; str "error"; str "fatal"; str "debug1"; str "debug2"; str "debug3"; str "debug4"] [].
