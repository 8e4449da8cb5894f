(** Vocabulary for the sending side of a publisher. *)
From Verif Require Import Base Sample ExpMapModel ConnModel WrModel.

(** How many sends were started, and the id in force. *)
Definition sends (os : list wcall) : nat :=
  length (filter (fun o => match o with CSend _ _ _ _ _ => true | _ => false end) os).
Definition id_after (os : list wcall) : Z :=
  fold_left (fun a o => match o with CSetID i => i | _ => a end) os 0%Z.

(** A layer enabled at both ends. *)
Definition common (c : wcfg) (s : sublayers) (l : ltype) : Prop :=
  (l = tl_udp /\ wc_udp c = true /\ sl_udp s = true) \/
  (l = tl_shm /\ wc_shm c = true /\ sl_shm s = true) \/
  (l = tl_tcp /\ wc_tcp c = true /\ sl_tcp s = true).
(** [l] is the first common layer of the priority list that applies. *)
Definition best_layer (c : wcfg) (k : subinfo) (s : sublayers) (l : ltype) : Prop :=
  exists before after,
    (if eqb (wc_host c) (si_host k) then wc_prio_local c else wc_prio_remote c) = before ++ l :: after /\
    common c s l /\ forall x, In x before -> ~ common c s x.
(** Some subscription so far made the publisher use layer [l]. *)
Definition activated (c : wcfg) (os : list wcall) (l : ltype) : Prop :=
  exists now k s, In (CSub now k s) os /\ best_layer c k s l.

(** The connection calls among the calls. *)
Definition conn_calls (os : list wcall) : list (wop subinfo sublayers) :=
  flat_map (fun o => match o with CSub now k s => [WApply now k s] | CUnsub k => [WRemove k] | CCheck now => [WCheck now] | _ => [] end) os.
Definition subscribed (w : writer) : Prop := em_contents (cn_map (w_conn w)) <> [].

(** What a send of [p] at [time] hands to layer [l] as the n-th send. *)
Definition same_message (c : wcfg) (id : Z) (n : nat) (p : list Z) (time : Z) (l : ltype) : tx :=
  Tx l id (Z.of_nat n) time (snd_hash (wc_tid_hash c) (Z.of_nat n)) (length p) (Some p).
Definition layers_of (w : writer) : list ltype :=
  (if w_shm w then [tl_shm] else []) ++ (if w_udp w then [tl_udp] else []) ++ (if w_tcp w then [tl_tcp] else []).
Definition accepted (w : writer) (okS okU okT : bool) : Prop :=
  (w_shm w = true /\ okS = true) \/ (w_udp w = true /\ okU = true) \/ (w_tcp w = true /\ okT = true).
