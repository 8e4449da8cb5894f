(** Properties of named mutexes: C21. *)
From Verif Require Import Base MtxModel MtxSpec MtxProofs.

Definition ex_create (c : nat) : list xop := [XOpen c; XExcl c; XTrunc c; XInit c].
Definition ex_hist (robust : bool) (ops : list xop) : list (xop * xres) :=
  match x_run robust ops msys_init with Some (_, rs) => combine ops rs | None => [] end.
Definition ex_sys (robust : bool) (ops : list xop) : msys :=
  match x_run robust ops msys_init with Some (s, _) => s | None => msys_init end.

(** Client 1 creates the mutex and takes it, clients 2 and 3 block; after the unlock
    client 3 gets it. *)
Definition ex_two : list xop :=
  ex_create 1 ++ [XOpen 2; XOpen 3; XLock 1 false; XLock 2 false; XLock 3 false; XUnlock 1; XWake 3; XWake 2].

(** C21: users that keep to the rules never touch the mutex before it has a size.
    Partial: the rules are needed, see the refuted statements below. *)
Theorem c21_no_fault_partial : forall robust ops,
  run_ok robust (needed robust) [] ops msys_init -> x_run robust ops msys_init <> None.
Proof. exact no_fault_lemma. Qed.
Print Assumptions c21_no_fault_partial.
Example c21_no_fault_case : run_ok false (needed false) [] ex_two msys_init.
Proof. xrun_solve. Qed.

(** C21: at any time at most one client holds the lock, where holding is defined by the
    results of the calls. *)
Theorem c21_one_holder_partial : forall robust ops s rs,
  run_ok robust (needed robust) [] ops msys_init -> x_run robust ops msys_init = Some (s, rs) ->
  forall a b, In a (holders (combine ops rs)) -> In b (holders (combine ops rs)) -> a = b.
Proof. exact one_holder_lemma. Qed.
Print Assumptions c21_one_holder_partial.
Example c21_one_holder_case : map snd (ex_hist false ex_two) =
  [XDone; XDone; XDone; XDone; XDone; XDone; XGot true false; XBlocked; XBlocked; XDone; XGot true false; XBlocked] /\
  holders (ex_hist false ex_two) = [3].
Proof. split; vm_compute; reflexivity. Qed.

(** C21: the lock is granted exactly if nobody holds it - to a caller immediately, to a
    waiter when it is woken up - and the grant reports a recovery exactly if the last
    holder died holding it. *)
Theorem c21_granted_iff_free_partial : forall robust ops s rs c id ow,
  run_ok robust (needed robust) [] ops msys_init -> x_run robust ops msys_init = Some (s, rs) ->
  (phase_of s c = Opened id ow false -> forall try, exists s',
     x_step robust (XLock c try) s = Some (s',
       match holders (combine ops rs) with
       | [] => XGot true (died_holding (combine ops rs))
       | _ => if try then XGot false false else XBlocked
       end)) /\
  (phase_of s c = Opened id ow true -> exists s',
     x_step robust (XWake c) s = Some (s',
       match holders (combine ops rs) with
       | [] => XGot true (died_holding (combine ops rs))
       | _ => XBlocked
       end)).
Proof. exact granted_lemma. Qed.
Print Assumptions c21_granted_iff_free_partial.
(** A robust mutex survives the death of its holder and ignores the destructor and the
    unlock of clients that do not hold it. *)
Definition ex_robust : list xop :=
  ex_create 1 ++ [XOpen 2; XOpen 3; XLock 2 true; XUnlock 3; XClose 3; XLock 1 true; XDie 2; XLock 1 true].
Example c21_granted_iff_free_case : run_ok true (needed true) [] ex_robust msys_init /\
  map snd (ex_hist true ex_robust) =
  [XDone; XDone; XDone; XDone; XDone; XDone; XGot true false; XDone; XClosed false; XGot false false; XDone; XGot true true].
Proof. split; [xrun_solve|vm_compute; reflexivity]. Qed.

(** C21: a released lock is free (and, by the previous theorem, granted to whoever asks
    next); for the holder itself all rules but the one about outliving the others hold. *)
Theorem c21_released_lock_is_free_partial : forall robust ops s rs c op s' r,
  run_ok robust (needed robust) [] ops msys_init -> x_run robust ops msys_init = Some (s, rs) ->
  In c (holders (combine ops rs)) ->
  op = XUnlock c \/ op = XClose c -> x_step robust op s = Some (s', r) -> r <> XRefused ->
  holders (combine (ops ++ [op]) (rs ++ [r])) = [] /\
  (forall r0, needed robust r0 = true -> r0 <> ROwner -> rule_ok r0 (combine ops rs) s op).
Proof. exact released_lemma. Qed.
Print Assumptions c21_released_lock_is_free_partial.
Example c21_released_lock_is_free_case :
  In 3 (holders (ex_hist false ex_two)) /\ x_step false (XUnlock 3) (ex_sys false ex_two) <> None.
Proof. split; vm_compute; [left; reflexivity|discriminate]. Qed.

(** C21 refuted for the plain mutex: destroying an object that does not hold the lock
    releases the lock of the holder (all other rules kept). *)
Theorem c21_destructor_releases_foreign_lock_refuted :
  exists ops s rs, run_ok false (except RClose false) [] ops msys_init /\
    x_run false ops msys_init = Some (s, rs) /\ holders (combine ops rs) = [3; 1].
Proof. exact close_counterexample. Qed.
Print Assumptions c21_destructor_releases_foreign_lock_refuted.

(** C21 refuted for the plain mutex: Unlock of a client that does not hold the lock
    releases it. *)
Theorem c21_foreign_unlock_refuted :
  exists ops s rs, run_ok false (except RUnlock false) [] ops msys_init /\
    x_run false ops msys_init = Some (s, rs) /\ holders (combine ops rs) = [2; 1].
Proof. exact unlock_counterexample. Qed.
Print Assumptions c21_foreign_unlock_refuted.

(** C21 refuted for both: a client that opens the mutex while another one creates it may
    take the lock, which the end of the creation forgets. *)
Theorem c21_creation_race_refuted : forall robust,
  exists ops s rs, run_ok robust (except RCreate robust) [] ops msys_init /\
    x_run robust ops msys_init = Some (s, rs) /\ holders (combine ops rs) = [1; 2].
Proof. exact create_counterexample. Qed.
Print Assumptions c21_creation_race_refuted.

(** C21 refuted for both: or it may be killed because the file has no size yet. *)
Theorem c21_creation_race_fault_refuted : forall robust,
  exists ops, run_ok robust (except RCreate robust) [] ops msys_init /\ x_run robust ops msys_init = None.
Proof. exact fault_counterexample. Qed.
Print Assumptions c21_creation_race_fault_refuted.

(** C21 refuted for both: two clients that start at the same time; one of them ends up
    without a mutex although it exists. *)
Theorem c21_creation_race_no_handle_refuted : forall robust,
  exists ops s rs, run_ok robust (except RCreate robust) [] ops msys_init /\
    x_run robust ops msys_init = Some (s, rs) /\ phase_of s 2 = NoHandle /\ ms_link s <> None.
Proof. exact nohandle_counterexample. Qed.
Print Assumptions c21_creation_race_no_handle_refuted.

(** C21 refuted for both: the creator unlinks the name when it is destroyed; who opens it
    afterwards gets another mutex than those who still have it open. *)
Theorem c21_owner_unlinks_refuted : forall robust,
  exists ops s rs, run_ok robust (except ROwner robust) [] ops msys_init /\
    x_run robust ops msys_init = Some (s, rs) /\ holders (combine ops rs) = [3; 2].
Proof. exact owner_counterexample. Qed.
Print Assumptions c21_owner_unlinks_refuted.

(** C21 refuted for the plain mutex: the death of the holder locks everybody out, the lock
    is never granted again although nobody holds it. *)
Theorem c21_holder_dies_refuted :
  exists ops s rs, run_ok false (except RDieHolding false) [] ops msys_init /\
    x_run false ops msys_init = Some (s, rs) /\ holders (combine ops rs) = [] /\
    phase_of s 2 = Opened 0 false false /\ x_step false (XLock 2 true) s = Some (s, XGot false false).
Proof. exact die_counterexample. Qed.
Print Assumptions c21_holder_dies_refuted.
