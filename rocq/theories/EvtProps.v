(** Properties of events: C22 (named) and C56 (unnamed). *)
From Verif Require Import Base EvtModel EvtSpec EvtProofs.

(** Client 1 creates the event, client 2 opens it and waits twice; one of two sets is
    enough for one wait only. *)
Definition ex_evt : list eop :=
  [VOpen 1 true; VExcl 1; VTrunc 1; VInit 1; VOpen 2 false; VSet 1; VSet 1; VWait 2 false; VWait 2 false; VWake 2; VSet 1; VTimeout 2].
Definition ex_evt_out : option (esys * list eres) := e_run ex_evt esys_init.
Definition ex_evt_sys : esys := match ex_evt_out with Some (s, _) => s | None => esys_init end.
Definition ex_evt_hist : list (eop * eres) := match ex_evt_out with Some (_, rs) => combine ex_evt rs | None => [] end.

(** C22: users that keep to the rules never touch an event before it has a size.
    Partial: the rules are needed, see the refuted statements below. *)
Theorem c22_no_fault_partial : forall ops, erun_ok all_rules ops esys_init -> e_run ops esys_init <> None.
Proof. exact eno_fault_lemma. Qed.
Print Assumptions c22_no_fault_partial.
Example c22_no_fault_case : erun_ok all_rules ex_evt esys_init.
Proof. erun_solve. Qed.

(** C22: a wait succeeds exactly if the event was set since the last successful wait - at
    once for a caller, on waking up for a waiter; otherwise it blocks (or fails if it must
    not block).  So no set is lost and no set is used twice. *)
Theorem c22_wait_succeeds_iff_set_partial : forall ops s rs c ow id,
  erun_ok all_rules ops esys_init -> e_run ops esys_init = Some (s, rs) ->
  (ephase_of s c = EOpened ow id false -> forall try, exists s',
     e_step (VWait c try) s = Some (s', if pending (combine ops rs) then VGot true else if try then VGot false else VBlocked)) /\
  (ephase_of s c = EOpened ow id true -> exists s',
     e_step (VWake c) s = Some (s', if pending (combine ops rs) then VGot true else VBlocked)).
Proof. exact wait_lemma. Qed.
Print Assumptions c22_wait_succeeds_iff_set_partial.
(** The wait that timed out left the last set for the next wait. *)
Example c22_wait_succeeds_iff_set_case :
  map snd ex_evt_hist = [VDone; VDone; VDone; VDone; VDone; VDone; VDone; VGot true; VBlocked; VBlocked; VDone; VGot false] /\
  pending ex_evt_hist = true /\ ephase_of ex_evt_sys 2 = EOpened false 0 false.
Proof. repeat split; vm_compute; reflexivity. Qed.

(** C22: there are never more successful waits than sets. *)
Theorem c22_one_wait_per_set_partial : forall ops s rs,
  erun_ok all_rules ops esys_init -> e_run ops esys_init = Some (s, rs) ->
  count is_got (combine ops rs) <= count is_set (combine ops rs).
Proof. exact got_le_set_lemma. Qed.
Print Assumptions c22_one_wait_per_set_partial.
Example c22_one_wait_per_set_case : count is_got ex_evt_hist = 1 /\ count is_set ex_evt_hist = 3.
Proof. split; vm_compute; reflexivity. Qed.

(** C22 refuted: a set through a handle that was opened while the event was being created
    is lost. *)
Theorem c22_set_during_creation_lost_refuted : exists ops s rs, erun_ok but_create ops esys_init /\
  e_run ops esys_init = Some (s, rs) /\ pending (combine ops rs) = true /\
  ephase_of s 1 = EOpened true 0 false /\ e_step (VWait 1 true) s = Some (s, VGot false).
Proof. exact lost_set_counterexample. Qed.
Print Assumptions c22_set_during_creation_lost_refuted.

(** C22 refuted: when two clients open a new event at the same time, one of them may get a
    handle without an event; its sets report success and do nothing, its blocking waits
    return at once. *)
Theorem c22_handle_without_event_refuted : exists ops s rs, erun_ok but_create ops esys_init /\
  e_run ops esys_init = Some (s, rs) /\ (exists o, ephase_of s 2 = ENull o) /\ ephase_of s 1 = EOpened true 0 false /\
  e_step (VSet 2) s = Some (s, VDone) /\ e_step (VWait 2 false) s = Some (s, VGot false).
Proof. exact null_counterexample. Qed.
Print Assumptions c22_handle_without_event_refuted.

(** C22 refuted: or it is killed, because the file has no size yet. *)
Theorem c22_creation_race_fault_refuted : exists ops, erun_ok but_create ops esys_init /\ e_run ops esys_init = None.
Proof. exact efault_counterexample. Qed.
Print Assumptions c22_creation_race_fault_refuted.

(** C22 refuted: closing a handle with ownership removes the name; sets through handles
    opened later do not reach the handles opened before. *)
Theorem c22_owner_closes_first_refuted : exists ops s rs, erun_ok but_owner ops esys_init /\
  e_run ops esys_init = Some (s, rs) /\ pending (combine ops rs) = true /\
  (exists id, ephase_of s 2 = EOpened false id false) /\ e_step (VWait 2 true) s = Some (s, VGot false).
Proof. exact eowner_counterexample. Qed.
Print Assumptions c22_owner_closes_first_refuted.

(** C56: an unnamed event grants a wait exactly if there have been more sets than
    successful waits; also a timed wait that runs into its timeout.  Partial: as long as
    less than 2^32 sets are outstanding. *)
Theorem c56_counts_partial : forall ops s rs c,
  urun_ok 0 ops usys_init -> u_run ops usys_init = (s, rs) ->
  (0 <= outstanding (combine ops rs))%Z /\
  (~ In c (us_waiting s) -> forall try, snd (u_step (UWait c try) s)
     = if (0 <? outstanding (combine ops rs))%Z then UGot true else if try then UGot false else UBlocked) /\
  (In c (us_waiting s) ->
     snd (u_step (UWake c) s) = (if (0 <? outstanding (combine ops rs))%Z then UGot true else UBlocked) /\
     snd (u_step (UTimeout c) s) = (if (0 <? outstanding (combine ops rs))%Z then UGot true else UGot false)).
Proof. exact u_granted_lemma. Qed.
Print Assumptions c56_counts_partial.
Example c56_counts_case : urun_ok 0 [USet; USet; UWait 1 false; UWait 2 true; UWait 1 false; USet; UWake 1; UWait 3 false] usys_init /\
  snd (u_run [USet; USet; UWait 1 false; UWait 2 true; UWait 1 false; USet; UWake 1; UWait 3 false] usys_init)
  = [UDone; UDone; UGot true; UGot true; UBlocked; UDone; UGot true; UBlocked].
Proof. vm_compute. repeat split. Qed.

(** C56 refuted: the counter wraps, 2^32 sets count as none. *)
Theorem c56_counter_wraps_refuted : exists ops s rs, u_run ops usys_init = (s, rs) /\
  outstanding (combine ops rs) = (2 ^ 32)%Z /\ u_step (UWait 1 true) s = (s, UGot false).
Proof. exact u_overflow_counterexample. Qed.
Print Assumptions c56_counter_wraps_refuted.
