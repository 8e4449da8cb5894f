(** Properties C06, C51 and C53: registration layer of one process. *)
From Verif Require Import Base Sample RegModel RegSpec RegProofs.

(** C06: after every history of consumer and loop-back changes, a sample is accepted
    exactly as configured; an accepted sample is given exactly once to every consumer
    registered at that moment (with the callback set last) and to nobody else, a
    rejected one to nobody. *)
Theorem c06_acceptance_and_delivery :
  forall (network loopback : bool) (group : text) (pid : Z) (h : list apop) (s : sample),
    let '(ok, calls) := ap_apply (ap_run (ap_new network loopback group pid) h) s in
    (ok = true <-> (from_group group s -> sm_pid s <> pid \/ loopback_after loopback h = true) /\
                   (~ from_group group s -> network = true)) /\
    NoDup (map fst calls) /\
    (forall c f, In (c, f) calls <-> ok = true /\ registered h c f).
Proof. exact apply_lemma. Qed.
Print Assumptions c06_acceptance_and_delivery.

(** A publisher of another process whose topic names our host group: delivered to the
    one consumer that is still registered. *)
Example c06_case :
  let s := Sample (str "7") 12 (str "otherhost") bct_reg_publisher [] [] process0 service0 client0
             (Topic 0 (str "mygroup") [] [] (str "t") [] dt0 [] 0 0 0 0 0 0 0 []) in
  from_group (str "mygroup") s /\
  ap_apply (ap_run (ap_new false false (str "mygroup") 11)
      [APSet (str "gates") 1; APSet (str "mon") 2; APSet (str "mon") 3; APRem (str "gates")]) s
  = (true, [(str "mon", 3)]).
Proof. split; [split; [discriminate|left; repeat split; discriminate]|reflexivity]. Qed.

(** C53: the user callback invoked for a sample is the one last set (and not removed)
    for the kind of entity the sample announces or withdraws; there is at most one. *)
Theorem c53_user_callback_of_matching_kind :
  forall (h : list uaop) (s : sample) (f : nat),
    ua_apply (fold_left ua_step h ua_new) s = Some f <-> exists e, event_matches e (sm_cmd s) /\ last_set h e f.
Proof. exact user_lemma. Qed.
Print Assumptions c53_user_callback_of_matching_kind.

(** C53: adding or removing a callback for an unknown event fails and changes nothing;
    for a known one it succeeds. *)
Theorem c53_unknown_event_rejected :
  forall (u : uapplier) (e : regevent) (f : nat), (exists z, e = ReOther z) <->
    (ua_result u (UAAdd e f) = false /\ ua_step u (UAAdd e f) = u /\ ua_result u (UARem e) = false /\ ua_step u (UARem e) = u).
Proof. exact user_unknown_lemma. Qed.
Print Assumptions c53_unknown_event_rejected.

Example c53_case :
  ua_apply (fold_left ua_step [UAAdd RePub 1; UAAdd ReSub 2; UARem RePub; UAAdd RePub 4; UARem ReSub] ua_new)
           (Sample [] 0 [] bct_unreg_publisher [] [] process0 service0 client0 topic0) = Some 4.
Proof. reflexivity. Qed.

(** C51: in every interleaving of hand-overs, the send thread and shutdown, what was
    sent plus what is still pending is exactly what was handed over, in order (so
    nothing is sent twice, reordered or invented); and cycles alternate cyclic
    registrations first, handed-over samples second. *)
Theorem c51_sent_in_order_at_most_once :
  forall (S : Type) (os : list (pvop S)),
    let p := pv_run (@pv_started S) os in
    sent_applied p ++ pv_applied p = handed pv_started os /\ alternates (pv_sent p).
Proof. exact @prov_lemma. Qed.
Print Assumptions c51_sent_in_order_at_most_once.

(** C51: when a cycle completes, everything handed over before has been sent. *)
Theorem c51_completed_cycle_sends_everything :
  forall (S : Type) (os1 os2 : list (pvop S)),
    pv_thread (pv_run (@pv_started S) os1) = ThApplied ->
    exists rest, sent_applied (pv_run pv_started (os1 ++ PvSendApplied :: os2)) = handed pv_started os1 ++ rest.
Proof. exact @cycle_lemma. Qed.
Print Assumptions c51_completed_cycle_sends_everything.

Example c51_case :
  let os1 := [PvPush 1; PvTrigger; PvWake; PvPush 2; PvCollect [100; 101]; PvPush 3] in
  pv_thread (pv_run (@pv_started nat) os1) = ThApplied /\
  pv_sent (pv_run pv_started (os1 ++ [PvSendApplied; PvPush 4])) = [Cyclic [100; 101]; Applied [1; 2; 3]] /\
  pv_applied (pv_run pv_started (os1 ++ [PvSendApplied; PvPush 4])) = [4].
Proof. cbn. auto. Qed.

(** C51, shutdown, is false: a schedule in which shutdown completes and the process
    withdrawal is never sent (the thread wakes up only after the stop flag was set). *)
Theorem c51_withdrawal_sent_on_shutdown_refuted :
  forall (S : Type) (w : S),
    exists os, let p := pv_run (@pv_started S) os in
      pv_stopping p = StDone /\ handed pv_started os = [w] /\ pv_sent p = [].
Proof. exact @shutdown_lost_lemma. Qed.
Print Assumptions c51_withdrawal_sent_on_shutdown_refuted.
