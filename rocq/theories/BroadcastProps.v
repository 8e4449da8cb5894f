(** Properties C03, C04 and C52: the shared event queue. *)
From Verif Require Import Base BroadcastModel BroadcastSpec BroadcastProofs.

(** C03: every history of operations on a queue laid over a memory of any content
    behaves like the bounded FIFO: never touches memory outside the slots, has the
    same size and the same exceptions, walking it yields the elements newest first,
    and front and back are the oldest and the newest element. *)
Theorem c03_queue_is_bounded_fifo :
  forall (T : Type) (content : list T) (cap : nat) (os : list (qop T)),
    0 < cap <= length content -> resets_ok (length content) os ->
    exists q rs, q_run os (q_reset cap (RCQ 0 0 0 0 content)) = Some (q, rs) /\
      let '(cap', L, rs') := fifo_run os (cap, []) in
      q_size q = length L /\ length L <= cap' /\ q_max q = cap' /\ rs = rs' /\ q_iter q = Some (rev L) /\
      (L <> [] -> q_front_val q = nth_error L 0 /\ q_back_val q = nth_error L (length L - 1)).
Proof. exact @queue_lemma. Qed.
Print Assumptions c03_queue_is_bounded_fifo.

Example c03_hypotheses_met :
  let os := [QPush 1; QPush 2; QPush 3; QPop; QPush 4; QPush 5; QReset 2; QPop; QPush 6] in
  0 < 3 <= length [0; 0; 0] /\ resets_ok 3 os /\
  fifo_run os (3, []) = (2, [6], [QDone; QDone; QDone; QDone; QDone; QDone; QDone; QThrew; QDone]).
Proof.
  split; [cbn; lia|]. split; [|reflexivity].
  intros m Hm. cbn in Hm.
  repeat (destruct Hm as [Hm|Hm]; [try discriminate; injection Hm as <-; lia|]). destruct Hm.
Qed.

(** C04: for one receiver, in every history of sends, polls and flushes with strictly
    increasing time stamps and one common queue size, each poll returns exactly the
    wanted events sent since its previous poll that are still among the last [cap],
    newest first, and nothing is ever read outside the file. *)
Theorem c04_polls_return_new_events :
  forall (cap : nat) (pid : Z) (content : list event) (os : list bop),
    0 < cap <= length content -> stamps_from 0 os -> same_size cap os ->
    exists s r outs, bc_run os (bc_fresh content, bc_receiver pid cap) = Some (s, r, outs) /\
      outs = snd (bspec_run cap pid os (BSpec [] 0 false)).
Proof. exact broadcast_lemma. Qed.
Print Assumptions c04_polls_return_new_events.

(** C04, exactly once: a receiver that polls at least every [cap] sends gets every
    event (of the other processes, or of all with loop back) exactly once, in order. *)
Theorem c04_every_event_exactly_once :
  forall (cap : nat) (pid : Z) (content : list event) (os : list bop) (now : Z) (lb : bool),
    0 < cap <= length content -> stamps_from 0 os -> same_size cap os -> polls_often cap 0 lb os ->
    exists s r outs, bc_run (os ++ [BPoll now 0 lb]) (bc_fresh content, bc_receiver pid cap) = Some (s, r, outs) /\
      concat (map (@rev event) outs) = filter (fun e => negb (Z.eqb (ev_pid e) pid) || lb) (sent_events os).
Proof. exact exactly_once_lemma. Qed.
Print Assumptions c04_every_event_exactly_once.

Example c04_hypotheses_met :
  let os := [BSend 1 2 7 100 0; BPoll 2 0 true; BPoll 2 0 true; BSend 3 2 9 101 1; BSend 4 2 7 102 2; BPoll 5 0 true; BSend 6 2 8 103 0] in
  stamps_from 0 os /\ same_size 2 os /\ polls_often 2 0 true os /\
  snd (bspec_run 2 9 (os ++ [BPoll 7 0 true]) (BSpec [] 0 false)) =
    [[Event 7 1 100 0]; []; [Event 7 4 102 2; Event 9 3 101 1]; [Event 8 6 103 0]].
Proof. cbn. repeat split; try lia; cbn; intros; intuition congruence. Qed.

(** C04 without the assumption on the clock is false: two events sent within one
    microsecond, with a poll in between; the second one is never delivered. *)
Theorem c04_equal_time_stamps_refuted :
  exists os content, sent_events os = [Event 1 5 10 0; Event 1 5 11 0] /\ polls_often 4 0 true os /\
    same_size 4 os /\
    exists s r, bc_run (os ++ [BPoll 6 0 true]) (bc_fresh content, bc_receiver 2 4)
                = Some (s, r, [[Event 1 5 10 0]; []]).
Proof. exact equal_stamps_lemma. Qed.
Print Assumptions c04_equal_time_stamps_refuted.

(** C52 is false: processes configured with different queue sizes; a receiver reads
    outside of its local buffer. *)
Theorem c52_mixed_queue_sizes_refuted :
  exists os content, stamps_from 0 os /\ 8 <= length content /\
    (forall a m p i t, In (BSend a m p i t) os -> m = 8) /\
    bc_run os (bc_fresh content, bc_receiver 2 4) = None.
Proof. exact mixed_sizes_lemma. Qed.
Print Assumptions c52_mixed_queue_sizes_refuted.
