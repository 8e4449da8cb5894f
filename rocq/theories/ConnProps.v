(** Property C11: connect and disconnect events of a subscriber.  The same code shape
    serves the publisher (C12, see WrProps.v), so the statements are generic in the
    kind of counterpart. *)
From Verif Require Import Base ExpMapModel ConnModel ConnSpec ConnProofs.

(** C11: in every history of complete calls, connected and disconnected events
    alternate starting with connected, the flag says which one came last, and exactly
    one update event is raised for each applied announcement, in order. *)
Theorem c11_events_alternate_partial :
  forall (K V : Type) (E : EqDec K) (dflt : V) (timeout : Z) (os : list (wop K V)),
    exists s, micro_run dflt (serial os) (conn_new timeout) = Some s /\ idle s /\
      alternating (signals (cn_events s)) /\ cn_flag s = Nat.odd (length (signals (cn_events s))) /\
      updates (cn_events s) = announced os.
Proof. exact @events_lemma. Qed.
Print Assumptions c11_events_alternate_partial.

(** C11: in every history of complete calls, after a connection check the subscriber
    counts as connected exactly if some publisher is registered and not timed out. *)
Theorem c11_connected_iff_registered_after_check_partial :
  forall (K V : Type) (E : EqDec K) (dflt : V) (t0 timeout : Z) (os : list (wop K V)) (now : Z),
    times_from t0 (os ++ [WCheck now]) ->
    exists s, micro_run dflt (serial (os ++ [WCheck now])) (conn_new timeout) = Some s /\
      (cn_flag s = true <-> exists k, registered timeout now os k).
Proof. exact @connected_lemma. Qed.
Print Assumptions c11_connected_iff_registered_after_check_partial.

(** C11 is false of the code when a check runs while an announcement is being applied:
    the disconnected event can come before the connected event it belongs to. *)
Theorem c11_overlapping_check_events_refuted :
  ~ (forall (timeout : Z) (ms : list (micro nat nat)) s,
       micro_run 0 ms (conn_new timeout) = Some s -> alternating (signals (cn_events s))).
Proof. exact overlap_events_refuted_lemma. Qed.
Print Assumptions c11_overlapping_check_events_refuted.

(** C11, and after such an overlap the subscriber can count as disconnected although a
    publisher is listed, even after a further, undisturbed check. *)
Theorem c11_overlapping_check_flag_refuted :
  ~ (forall (timeout : Z) (ms : list (micro nat nat)) (now : Z) s s',
       micro_run 0 ms (conn_new timeout) = Some s -> idle s ->
       micro_run 0 (whole (WCheck now)) s = Some s' -> em_contents (cn_map s') <> [] -> cn_flag s' = true).
Proof. exact overlap_flag_refuted_lemma. Qed.
Print Assumptions c11_overlapping_check_flag_refuted.

Definition c11_history : list (wop nat nat) :=
  [WApply 0 1 7; WCheck 1; WApply 3 2 8; WRemove 1; WCheck 5; WCheck 20; WApply 21 1 9].
Example c11_hypotheses_met :
  times_from 0 (c11_history ++ [WCheck 22]) /\ registered 10 22 c11_history 1 /\
  exists s, micro_run 0 (serial c11_history) (conn_new 10) = Some s /\ signals (cn_events s) = [true; false; true].
Proof.
  split; [cbn; lia|]. split.
  - exists [WApply 0 1 7; WCheck 1; WApply 3 2 8; WRemove 1; WCheck 5; WCheck 20], 21%Z, 9, [].
    split; [reflexivity|]. split; [lia|]. split; [intros t v []|intros []].
  - eexists. split; vm_compute; reflexivity.
Qed.
