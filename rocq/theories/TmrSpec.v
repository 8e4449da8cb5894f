(** Vocabulary for the claims about timers. *)
From Verif Require Import Base TmrModel.

(** Programs in which every timer is started and stopped by one thread of the user, never by callbacks, and (in C) with a callback. *)
Definition calm_event (c_api : bool) (own : nat -> nat) (e : tev) : bool :=
  match e with
  | EStart a k _ nl => eqb a (User (own k)) && negb (c_api && nl)
  | EStop a k => eqb a (User (own k))
  | EGo _ => true
  end.
Definition calm (c_api : bool) (own : nat -> nat) (es : list tev) : bool := forallb (calm_event c_api own) es.

(** Programs that give every timer a callback. *)
Definition with_callback (es : list tev) : bool := forallb (fun e => match e with EStart _ _ _ nl => negb nl | _ => true end) es.

(** What the returned values so far say: the timer is on. *)
Definition turn (k : nat) (b : bool) (o : tsaid) : bool :=
  match o with
  | OStart _ k' _ true => if Nat.eqb k k' then true else b
  | OStop _ k' _ => if Nat.eqb k k' then false else b
  | _ => b
  end.
Definition is_on (k : nat) (os : list tsaid) : bool := fold_left (turn k) os false.
(** Start was called, and Stop has not returned since. *)
Definition want (k : nat) (b : bool) (o : tsaid) : bool :=
  match o with
  | OAsk _ k' => if Nat.eqb k k' then true else b
  | OStop _ k' _ => if Nat.eqb k k' then false else b
  | _ => b
  end.
Definition wanted (k : nat) (os : list tsaid) : bool := fold_left (want k) os false.
(** The callback of k is running (begun and not ended) in thread w. *)
Definition inside (w : nat) (b : bool) (o : tsaid) : bool :=
  match o with OCall w' _ => if Nat.eqb w w' then true else b | OBack w' _ => if Nat.eqb w w' then false else b | _ => b end.
Definition running_in (w : nat) (os : list tsaid) : bool := fold_left (inside w) os false.

(** Only steps of threads: no new calls. *)
Definition only_go (es : list tev) : bool := forallb (fun e => match e with EGo _ => true | _ => false end) es.

(** Example programs. *)
Definition go (a : agent) (n : nat) : list tev := repeat (EGo a) n.
(** A timer is started, its callback runs twice, it is stopped. *)
Definition plain_use : list tev :=
  EStart (User 0) 7 100 false :: go (User 0) 4 ++ go (Worker 0) 9 ++ EStop (User 0) 7 :: go (User 0) 3 ++ go (Worker 0) 4 ++ go (User 0) 2.
(** Two timers; both threads want to call; the callback of the first stops the second. *)
Definition crossing : list tev :=
  EStart (User 0) 1 100 false :: go (User 0) 4 ++ EStart (User 0) 2 100 false :: go (User 0) 4 ++
  go (Worker 0) 4 ++ go (Worker 1) 3 ++ EStop (Worker 0) 2 :: go (Worker 0) 2.
Definition self_stop : list tev := EStart (User 0) 1 100 false :: go (User 0) 4 ++ go (Worker 0) 4 ++ EStop (Worker 0) 1 :: go (Worker 0) 3.
Definition early_stop : list tev := EStart (User 0) 1 100 false :: go (User 0) 3 ++ go (Worker 0) 4 ++ EStop (Worker 0) 1 :: go (Worker 0) 1.
Definition both_stop : list tev :=
  EStart (User 0) 1 100 false :: go (User 0) 4 ++ EStop (User 0) 1 :: EStop (User 1) 1 :: go (User 0) 2 ++ go (User 1) 2 ++ go (Worker 0) 4 ++ go (User 0) 1 ++ go (User 1) 1.
Definition null_use : list tev := EStart (User 0) 1 100 true :: go (User 0) 4 ++ go (Worker 0) 4.
