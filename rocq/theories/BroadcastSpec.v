(** Specification vocabulary: a bounded list, and what a receiver has not seen. *)
From Verif Require Import Base BroadcastModel.

(** Keep the last [n] elements. *)
Definition lastn {A} (n : nat) (l : list A) : list A := skipn (length l - n) l.

(** Bounded FIFO: state = capacity and contents, oldest first. *)
Definition fifo_step {T} (o : qop T) (s : nat * list T) : nat * list T * qres :=
  let '(cap, l) := s in
  match o with
  | QPush x => (cap, lastn cap (l ++ [x]), QDone)
  | QPop => match l with [] => (cap, [], QThrew) | _ :: l' => (cap, l', QDone) end
  | QReset m => (m, [], QDone)
  end.
Fixpoint fifo_run {T} (os : list (qop T)) (s : nat * list T) : nat * list T * list qres :=
  match os with
  | [] => (s, [])
  | o :: os' => let '(s', r) := fifo_step o s in
                let '(s'', rs) := fifo_run os' s' in (s'', r :: rs)
  end.

(** Resets must ask for at least one slot and no more slots than the memory has. *)
Definition resets_ok {T} (slots : nat) (os : list (qop T)) : Prop :=
  forall m, In (QReset m) os -> 0 < m <= slots.

(** ** Broadcast *)

(** What one receiver should get.  [sent] are all events since the last reset of the
    queue, [seen] how many of them precede its last poll. *)
Record bspec := BSpec { sp_sent : list event; sp_seen : nat; sp_init : bool }.

Definition wanted (pid now timeout : Z) (loopback : bool) (e : event) : bool :=
  (Z.eqb timeout 0 || Z.ltb (now - timeout * 1000) (ev_ts e)) && (negb (Z.eqb (ev_pid e) pid) || loopback).

(** Events sent since the last poll that are still among the last [cap]. *)
Definition available (cap : nat) (s : bspec) : list event :=
  lastn cap (skipn (sp_seen s) (sp_sent s)).

Definition bspec_step (cap : nat) (pid : Z) (o : bop) (s : bspec) : bspec * list (list event) :=
  match o with
  | BSend now _ p id ty => (BSpec (sp_sent s ++ [Event p now id ty]) (sp_seen s) true, [])
  | BPoll now timeout lb =>
      if sp_init s
      then (BSpec (sp_sent s) (length (sp_sent s)) true,
            [rev (filter (wanted pid now timeout lb) (available cap s))])
      else (s, [])
  | BFlushGlobal _ _ => (BSpec [] 0 true, [])
  | BFlushLocal => (if sp_init s then BSpec (sp_sent s) (length (sp_sent s)) true else s, [])
  end.
Fixpoint bspec_run (cap : nat) (pid : Z) (os : list bop) (s : bspec) : bspec * list (list event) :=
  match os with
  | [] => (s, [])
  | o :: os' => let '(s', out) := bspec_step cap pid o s in
                let '(s'', outs) := bspec_run cap pid os' s' in (s'', out ++ outs)
  end.

(** All processes are configured with the same queue size [cap] and the clock used
    for stamping strictly increases from one stamp to the next. *)
Fixpoint stamps_from (t : Z) (os : list bop) : Prop :=
  match os with
  | [] => True
  | BSend now _ _ _ _ :: os' => (t < now)%Z /\ stamps_from now os'
  | BFlushGlobal now _ :: os' => (t < now)%Z /\ stamps_from now os'
  | _ :: os' => stamps_from t os'
  end.
Definition same_size (cap : nat) (os : list bop) : Prop :=
  (forall a m p i t, In (BSend a m p i t) os -> m = cap) /\
  (forall a m, In (BFlushGlobal a m) os -> m = cap).

(** The events a history sends, in order. *)
Fixpoint sent_events (os : list bop) : list event :=
  match os with
  | [] => []
  | BSend now _ p id ty :: os' => Event p now id ty :: sent_events os'
  | _ :: os' => sent_events os'
  end.

(** A receiver that polls without a time limit, and often enough: at most [cap]
    events are sent between two of its polls ([k] were sent since the last one), and
    nobody flushes. *)
Fixpoint polls_often (cap k : nat) (lb : bool) (os : list bop) : Prop :=
  match os with
  | [] => True
  | BSend _ _ _ _ _ :: os' => k + 1 <= cap /\ polls_often cap (k + 1) lb os'
  | BPoll _ timeout lb' :: os' => timeout = 0%Z /\ lb' = lb /\ polls_often cap 0 lb os'
  | BFlushGlobal _ _ :: _ => False
  | BFlushLocal :: _ => False
  end.
