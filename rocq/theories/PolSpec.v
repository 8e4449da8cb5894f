(** Vocabulary for the observers of memory files. *)
From Coq Require Import Sorted.
From Verif Require Import Base Sample PolModel.

(** The operations lead to this pool and these events. *)
Definition ran (ops : list poop) (s : pool) (evs : list poev) : Prop := po_run ops pool0 = (s, evs).
(** The pool has this observer for the file; its thread is in its loop, or at its end. *)
Definition watches (s : pool) (f : text) (o : obs) : Prop := aget f (pl_map s) = Some o.
Definition looping (o : obs) : Prop := ob_ph o = PhCheck \/ ob_ph o = PhWait \/ ob_ph o = PhHave.
Definition over (o : obs) : Prop := ob_ph o = PhDone.
(** A sign of life of the file's publisher at time [t]: ObserveFile was called for it and returned true, or
    its signal was received. *)
Definition sign (f : text) (t : Z) (evs : list poev) : Prop := In (PRet f t) evs \/ In (PSig f t) evs.
(** The times of the operations do not go back. *)
Definition time_of (o : poop) : list Z := match o with PoBody _ _ t | PoCheck _ t | PoWait _ _ t => [t] | _ => [] end.
Definition steady (ops : list poop) : Prop := StronglySorted Z.le (flat_map time_of ops).
(** The contents handed over by one thread, by their counters. *)
Definition handed (f : text) (run : nat) (evs : list poev) : list Z :=
  flat_map (fun e => match e with PHand g r c => if (eqb g f && Nat.eqb r run)%bool then [c] else [] | _ => [] end) evs.

(** ** Examples *)
Definition p_f : text := str "ecal_1".
Definition p_call (now : Z) : list poop := [PoEnter p_f 10000; PoBody p_f 10000 now].
Definition p_turn (now : Z) (sig : bool) : list poop := [PoCheck p_f now; PoWait p_f sig now].
Definition p_message (now c : Z) : list poop := p_turn now true ++ [PoTry p_f true c].
Definition p_live : list poop := PoStart :: p_call 0 ++ p_message 20 1 ++ p_turn 5000 false ++ p_call 9000 ++ p_turn 15000 false ++ p_message 18000 2 ++ p_turn 27000 false.
(** A pause of more than the timeout, then the publisher is heard again. *)
Definition p_pause : list poop := PoStart :: p_call 0 ++ p_message 20 1 ++ [PoCheck p_f 10100; PoEnd p_f].
Definition p_back : list poop := p_pause ++ p_call 10200.
Definition p_events (ops : list poop) : list poev := snd (po_run ops pool0).
Definition p_view (ops : list poop) : option (phase * bool * nat) := match aget p_f (pl_map (fst (po_run ops pool0))) with Some o => Some (ob_ph o, ob_alive o, ob_run o) | None => None end.
