(** Lemmas about the registration layer. *)
From Verif Require Import Base Sample RegModel RegSpec.

Lemma is_nil_spec {A} (l : list A) : is_nil l = true <-> l = [].
Proof. destruct l; cbn; split; intros; congruence. Qed.

Lemma member_spec a s : ap_member a s = true <-> from_group (ap_group a) s.
Proof.
  unfold ap_member, from_group, group_of.
  set (topical := is_pub_cmd (sm_cmd s) || is_sub_cmd (sm_cmd s)).
  assert (Hg : ap_group_name s = if topical then tp_hgname (sm_topic s) else []).
  { unfold topical, ap_group_name. destruct (sm_cmd s); reflexivity. }
  rewrite Hg. clear Hg. destruct topical.
  - destruct (tp_hgname (sm_topic s)) as [|z l] eqn:E; cbn [is_nil].
    + destruct (sm_host s) as [|z l]; cbn [is_nil orb].
      * split; [discriminate|]. intros [H1 [[_ [H2 _]]|[_ H2]]]; congruence.
      * destruct (ap_group a) as [|y m] eqn:G; cbn [is_nil].
        { split; [discriminate|]. intros [H1 _]; congruence. }
        destruct (eqb (z :: l) (y :: m)) eqn:Q; cbn.
        { apply eqb_true in Q. split; [intros _|reflexivity]. split; [discriminate|]. right. split; [right; reflexivity|congruence]. }
        { apply eqb_false in Q. split; [discriminate|]. intros [_ [[_ [H _]]|[_ H]]]; congruence. }
    + cbn [orb]. destruct (ap_group a) as [|y m] eqn:G; cbn [is_nil].
      { split; [discriminate|]. intros [H1 _]; congruence. }
      destruct (eqb (z :: l) (y :: m)) eqn:Q; cbn.
      { apply eqb_true in Q. split; [intros _|reflexivity]. split; [discriminate|]. left. repeat split; congruence. }
      { apply eqb_false in Q. split; [discriminate|]. intros [_ [[_ [_ H]]|[[H|H] _]]]; congruence. }
  - cbn [is_nil]. destruct (sm_host s) as [|z l]; cbn [is_nil orb].
    + split; [discriminate|]. intros [H1 [[H2 _]|[_ H2]]]; congruence.
    + destruct (ap_group a) as [|y m] eqn:G; cbn [is_nil].
      { split; [discriminate|]. intros [H1 _]; congruence. }
      destruct (eqb (z :: l) (y :: m)) eqn:Q; cbn.
      { apply eqb_true in Q. split; [intros _|reflexivity]. split; [discriminate|]. right. split; [left; reflexivity|congruence]. }
      { apply eqb_false in Q. split; [discriminate|]. intros [_ [[H _]|[_ H]]]; congruence. }
Qed.

Lemma run_fixed h : forall a, ap_network (ap_run a h) = ap_network a /\ ap_group (ap_run a h) = ap_group a /\
  ap_pid (ap_run a h) = ap_pid a /\ ap_loopback (ap_run a h) = loopback_after (ap_loopback a) h.
Proof.
  induction h as [|o h IH]; intros a; cbn; [auto|].
  destruct (IH (ap_step a o)) as [H1 [H2 [H3 H4]]]. unfold ap_run in *. cbn. rewrite H1, H2, H3, H4.
  destruct o; cbn; auto.
Qed.

Lemma run_nodup h : forall a, NoDup (keys (ap_customers a)) -> NoDup (keys (ap_customers (ap_run a h))).
Proof.
  induction h as [|o h IH]; intros a Hn; cbn; [exact Hn|]. apply IH. destruct o; cbn; try exact Hn; [apply nodup_aset|apply nodup_adel]; exact Hn.
Qed.

Lemma registered_snoc h o c f : registered (h ++ [o]) c f <->
  o = APSet c f \/ (registered h c f /\ o <> APRem c /\ forall g, o <> APSet c g).
Proof.
  split.
  - intros [h1 [h2 [E H]]]. destruct (@exists_last _ (APSet c f :: h2)) as [l [x Hx]]; [discriminate|].
    assert (E' : h ++ [o] = (h1 ++ l) ++ [x]) by (rewrite E, Hx, app_assoc; reflexivity).
    apply app_inj_tail in E' as [E1 <-]. destruct l as [|y l]; cbn in Hx.
    + injection Hx as Hx _. left; congruence.
    + right. injection Hx as <- Hx. split; [exists h1, l; split; [exact E1|]|].
      * intros o' Ho'. apply H. rewrite Hx. apply in_app_iff; auto.
      * apply H. rewrite Hx. apply in_app_iff; cbn; auto.
  - intros [->|[[h1 [h2 [-> H]]] [H1 H2]]].
    + exists h, []. split; [reflexivity|]. intros o [].
    + exists h1, (h2 ++ [o]). split; [rewrite <- app_assoc; reflexivity|].
      intros o' Ho'. apply in_app_iff in Ho' as [Ho'|[<-|[]]]; auto.
Qed.

Lemma run_customers h n l g p c f :
  aget c (ap_customers (ap_run (ap_new n l g p) h)) = Some f <-> registered h c f.
Proof.
  revert c f. induction h as [|o h IH] using rev_ind; intros c f.
  - cbn. split; [discriminate|]. intros [h1 [h2 [E _]]]. destruct h1; discriminate.
  - unfold ap_run. rewrite fold_left_snoc. change (fold_left ap_step h (ap_new n l g p)) with (ap_run (ap_new n l g p) h).
    rewrite registered_snoc, <- IH. destruct o as [c' f'|c'|b|s]; cbn.
    + rewrite aget_aset. destruct (eqb c c') eqn:E.
      * apply eqb_true in E. subst c'. split; [intros H; injection H as ->; auto|].
        intros [H|[_ [_ H]]]; [congruence|]. specialize (H f'). congruence.
      * apply eqb_false in E. split.
        -- intros H. right. split; [exact H|]. split; [discriminate|]. intros g' Hg'. injection Hg' as -> _. congruence.
        -- intros [H|[H _]]; [injection H as -> _; congruence|exact H].
    + rewrite aget_adel. destruct (eqb c c') eqn:E.
      * apply eqb_true in E. subst c'. split; [discriminate|]. intros [H|[_ [H _]]]; [discriminate|congruence].
      * apply eqb_false in E. split.
        -- intros H. right. split; [exact H|]. split; [congruence|]. intros; discriminate.
        -- intros [H|[H _]]; [discriminate|exact H].
    + split; [intros H; right; split; [exact H|]; split; intros; discriminate|intros [H|[H _]]; [discriminate|exact H]].
    + split; [intros H; right; split; [exact H|]; split; intros; discriminate|intros [H|[H _]]; [discriminate|exact H]].
Qed.

Lemma apply_lemma network loopback group pid h s :
  let '(ok, calls) := ap_apply (ap_run (ap_new network loopback group pid) h) s in
  (ok = true <-> (from_group group s -> sm_pid s <> pid \/ loopback_after loopback h = true) /\
                 (~ from_group group s -> network = true)) /\
  NoDup (map fst calls) /\
  (forall c f, In (c, f) calls <-> ok = true /\ registered h c f).
Proof.
  set (a := ap_run _ h).
  destruct (run_fixed h (ap_new network loopback group pid)) as [H1 [H2 [H3 H4]]]. fold a in H1, H2, H3, H4. cbn in H1, H2, H3, H4.
  assert (Hacc : ap_accept a s = true <-> (from_group group s -> sm_pid s <> pid \/ loopback_after loopback h = true) /\
                 (~ from_group group s -> network = true)).
  { unfold ap_accept. pose proof (member_spec a s) as M. rewrite H2 in M.
    destruct (ap_member a s).
    - assert (F : from_group group s) by (apply M; reflexivity).
      unfold ap_same_process. rewrite H3, H4, orb_true_iff, negb_true_iff, Z.eqb_neq. split; [intros H; split; tauto|tauto].
    - assert (F : ~ from_group group s) by (intros F; apply M in F; discriminate). rewrite H1. tauto. }
  assert (Hnd : NoDup (keys (ap_customers a))) by (apply run_nodup; constructor).
  unfold ap_apply. destruct (ap_accept a s); cbn [negb].
  - split; [exact Hacc|]. split; [exact Hnd|]. intros c f. rewrite <- (run_customers h network loopback group pid).
    fold a. split.
    + intros Hin. split; [reflexivity|]. apply in_aget; assumption.
    + intros [_ Hg]. apply aget_in; assumption.
  - split; [exact Hacc|]. split; [constructor|]. intros c f; split; [intros []|intros [H _]; discriminate].
Qed.

(** ** User callbacks *)
Definition ua_slot (e : regevent) (u : uapplier) : option nat :=
  match e with RePub => ua_pub u | ReSub => ua_sub u | ReService => ua_srv u | ReClient => ua_cli u | ReProcess => ua_prc u | ReOther _ => None end.
#[local] Instance EqDec_regevent : EqDec regevent.
Proof. intros x y. decide equality. apply Z.eq_dec. Defined.

Lemma last_set_snoc h o e f : last_set (h ++ [o]) e f <->
  o = UAAdd e f \/ (last_set h e f /\ o <> UARem e /\ forall g, o <> UAAdd e g).
Proof.
  split.
  - intros [h1 [h2 [E H]]]. destruct (@exists_last _ (UAAdd e f :: h2)) as [l [x Hx]]; [discriminate|].
    assert (E' : h ++ [o] = (h1 ++ l) ++ [x]) by (rewrite E, Hx, app_assoc; reflexivity).
    apply app_inj_tail in E' as [E1 <-]. destruct l as [|y l]; cbn in Hx.
    + injection Hx as Hx _. left; congruence.
    + right. injection Hx as <- Hx. split; [exists h1, l; split; [exact E1|]|].
      * intros o' Ho'. apply H. rewrite Hx. apply in_app_iff; auto.
      * apply H. rewrite Hx. apply in_app_iff; cbn; auto.
  - intros [->|[[h1 [h2 [-> H]]] [H1 H2]]].
    + exists h, []. split; [reflexivity|]. intros o [].
    + exists h1, (h2 ++ [o]). split; [rewrite <- app_assoc; reflexivity|].
      intros o' Ho'. apply in_app_iff in Ho' as [Ho'|[<-|[]]]; auto.
Qed.

Lemma ua_slot_put e e' x u : known_event e' -> ua_slot e (fst (ua_put e' x u)) = if eqb e e' then x else ua_slot e u.
Proof.
  intros Hk. destruct (eqb e e') eqn:E.
  - apply eqb_true in E; subst. destruct e'; try reflexivity. exfalso; eapply Hk; reflexivity.
  - apply eqb_false in E. destruct e, e'; try reflexivity; congruence.
Qed.
Lemma ua_put_other z x u : fst (ua_put (ReOther z) x u) = u.
Proof. reflexivity. Qed.

Lemma ua_slot_run h e f : known_event e -> (ua_slot e (fold_left ua_step h ua_new) = Some f <-> last_set h e f).
Proof.
  intros Hk. revert f. induction h as [|o h IH] using rev_ind; intros f.
  - cbn. split; [destruct e; discriminate|]. intros [h1 [h2 [E _]]]. destruct h1; discriminate.
  - rewrite fold_left_snoc, last_set_snoc, <- IH. destruct o as [e' f'|e']; cbn [ua_step].
    + destruct (eqb e e') eqn:E.
      * apply eqb_true in E. subst e'. rewrite ua_slot_put by assumption. rewrite eqb_refl.
        split; [intros H; injection H as ->; auto|]. intros [H|[_ [_ H]]]; [congruence|]. specialize (H f'); congruence.
      * assert (E' := E). apply eqb_false in E'.
        assert (Hs : ua_slot e (fst (ua_put e' (Some f') (fold_left ua_step h ua_new))) = ua_slot e (fold_left ua_step h ua_new)).
        { destruct e'; try (rewrite ua_slot_put, E by (intros z; discriminate); reflexivity). reflexivity. }
        rewrite Hs. split.
        -- intros H. right. split; [exact H|]. split; [discriminate|]. intros g Hg. injection Hg as -> _; congruence.
        -- intros [H|[H _]]; [injection H as -> _; congruence|exact H].
    + destruct (eqb e e') eqn:E.
      * apply eqb_true in E. subst e'. rewrite ua_slot_put by assumption. rewrite eqb_refl.
        split; [discriminate|]. intros [H|[_ [H _]]]; congruence.
      * assert (E' := E). apply eqb_false in E'.
        assert (Hs : ua_slot e (fst (ua_put e' None (fold_left ua_step h ua_new))) = ua_slot e (fold_left ua_step h ua_new)).
        { destruct e'; try (rewrite ua_slot_put, E by (intros z; discriminate); reflexivity). reflexivity. }
        rewrite Hs. split.
        -- intros H. right. split; [exact H|]. split; [congruence|]. intros; discriminate.
        -- intros [H|[H _]]; [discriminate|exact H].
Qed.

Lemma user_lemma h s f :
  ua_apply (fold_left ua_step h ua_new) s = Some f <-> exists e, event_matches e (sm_cmd s) /\ last_set h e f.
Proof.
  split.
  - unfold ua_apply. intros H.
    destruct (sm_cmd s) eqn:C; try discriminate;
      [exists RePub|exists ReSub|exists ReProcess|exists ReService|exists ReClient
      |exists RePub|exists ReSub|exists ReProcess|exists ReService|exists ReClient];
      (split; [reflexivity|]; apply ua_slot_run; [intros z; discriminate|exact H]).
  - intros [e [Hm Hl]]. apply ua_slot_run in Hl; [|destruct e; cbn in Hm; try contradiction; intros z; discriminate].
    unfold ua_apply. destruct e; cbn in Hm, Hl; destruct (sm_cmd s); try discriminate; try contradiction; exact Hl.
Qed.
Lemma user_unknown_lemma u e f : (exists z, e = ReOther z) <->
  (ua_result u (UAAdd e f) = false /\ ua_step u (UAAdd e f) = u /\ ua_result u (UARem e) = false /\ ua_step u (UARem e) = u).
Proof.
  split; [intros [z ->]; auto|]. intros [H _]. destruct e; try discriminate. eauto.
Qed.

(** ** Provider *)
Section Provider.
  Context {S : Type}.
  Implicit Types (p : prov S) (os : list (pvop S)).

  Lemma handed_app os1 : forall p os2, handed p (os1 ++ os2) = handed p os1 ++ handed (pv_run p os1) os2.
  Proof.
    induction os1 as [|o os1 IH]; intros p os2; cbn; [reflexivity|]. rewrite IH, app_assoc. reflexivity.
  Qed.

  Lemma sent_applied_snoc l b : flat_map (@applied_of S) (l ++ [b]) = flat_map applied_of l ++ applied_of b.
  Proof. rewrite flat_map_app. cbn. rewrite app_nil_r. reflexivity. Qed.

  Lemma prov_inv os : forall p, sent_applied (pv_run p os) ++ pv_applied (pv_run p os) = (sent_applied p ++ pv_applied p) ++ handed p os.
  Proof.
    induction os as [|o os IH]; intros p; cbn [pv_run fold_left handed].
    - rewrite app_nil_r. reflexivity.
    - change (fold_left pv_step os (pv_step p o)) with (pv_run (pv_step p o) os).
      rewrite IH, app_assoc. f_equal. unfold sent_applied.
      destruct o; cbn [pv_step].
      + destruct (pv_created p); cbn; rewrite ?app_nil_r, ?app_assoc; reflexivity.
      + cbn; rewrite app_nil_r; reflexivity.
      + destruct (pv_stopping p); cbn; rewrite ?app_nil_r; try reflexivity.
        destruct (pv_created p); cbn; rewrite ?app_nil_r, ?app_assoc; reflexivity.
      + destruct (pv_stopping p); cbn; rewrite ?app_nil_r; reflexivity.
      + destruct (pv_stopping p); cbn; rewrite ?app_nil_r; reflexivity.
      + destruct (pv_stopping p), (pv_thread p); cbn; rewrite ?app_nil_r; reflexivity.
      + destruct (pv_thread p), (pv_stop p); cbn; rewrite ?app_nil_r; reflexivity.
      + destruct (pv_thread p); cbn [pv_sent pv_applied]; rewrite ?sent_applied_snoc; cbn; rewrite ?app_nil_r; reflexivity.
      + destruct (pv_thread p); cbn [pv_sent pv_applied]; rewrite ?sent_applied_snoc; cbn; rewrite ?app_nil_r; reflexivity.
  Qed.

  Fixpoint alt_from (c : bool) (l : list (batch S)) : Prop :=
    match l with
    | [] => True
    | Cyclic _ :: l' => c = true /\ alt_from false l'
    | Applied _ :: l' => c = false /\ alt_from true l'
    end.
  Lemma alt_alternates_n n : forall l, length l <= n -> alt_from true l -> alternates l.
  Proof.
    induction n as [|n IH]; intros l Hl; destruct l as [|[a|a] l]; cbn in *; try lia; auto.
    intros [_ H]. destruct l as [|[b|b] l]; cbn in *; auto; [destruct H; discriminate|].
      apply IH; [lia|tauto].
  Qed.
  Lemma alt_snoc l : forall c b, alt_from c (l ++ [b]) <->
    alt_from c l /\ match b with Cyclic _ => Nat.even (length l) = c | Applied _ => Nat.even (length l) = negb c end.
  Proof.
    induction l as [|x l IH]; intros c b.
    - cbn. destruct b, c; cbn; intuition congruence.
    - cbn [app alt_from length]. rewrite Nat.even_succ, <- Nat.negb_even.
      destruct x; rewrite IH; destruct b, c, (Nat.even (length l)); cbn; intuition congruence.
  Qed.

  Definition PInv p : Prop :=
    alt_from true (pv_sent p) /\
    Nat.even (length (pv_sent p)) = match pv_thread p with ThApplied => false | _ => true end /\
    (pv_created p = true \/ pv_thread p = ThExited).

  Lemma pinv_step p o : PInv p -> PInv (pv_step p o).
  Proof.
    intros H. assert (H' := H). destruct H' as [H1 [H2 H3]]. unfold PInv in *. destruct o; cbn [pv_step].
    - destruct (pv_created p) eqn:E; [|rewrite E; exact H]. cbn. tauto.
    - exact H.
    - destruct (pv_stopping p); try exact H. destruct (pv_created p) eqn:E; [|rewrite E; exact H]. cbn. auto.
    - destruct (pv_stopping p); exact H.
    - destruct (pv_stopping p); exact H.
    - destruct (pv_stopping p); try exact H. destruct (pv_thread p) eqn:T; try (rewrite T; exact H). cbn. auto.
    - destruct (pv_thread p) eqn:T; try (rewrite T; exact H).
      destruct H3 as [H3|H3]; [|discriminate].
      destruct (pv_stop p); cbn; auto.
    - destruct (pv_thread p) eqn:T; try (rewrite T; exact H).
      cbn. rewrite alt_snoc, app_length. cbn [length]. rewrite Nat.add_1_r, Nat.even_succ, <- Nat.negb_even, H2.
      destruct H3 as [H3|H3]; [|discriminate]. auto.
    - destruct (pv_thread p) eqn:T; try (rewrite T; exact H).
      cbn. rewrite alt_snoc, app_length. cbn [length]. rewrite Nat.add_1_r, Nat.even_succ, <- Nat.negb_even, H2.
      destruct H3 as [H3|H3]; [|discriminate]. auto.
  Qed.

  Lemma prov_lemma os :
    let p := pv_run (@pv_started S) os in
    sent_applied p ++ pv_applied p = handed pv_started os /\ alternates (pv_sent p).
  Proof.
    split.
    - rewrite prov_inv. reflexivity.
    - apply (alt_alternates_n (length (pv_sent (pv_run pv_started os)))); [auto|].
      assert (PInv (pv_run (@pv_started S) os)) as [H _]; [|exact H].
      apply (fold_left_inv _ PInv).
      + repeat split; cbn; auto.
      + intros; apply pinv_step; assumption.
  Qed.

  (** A completed cycle flushes everything handed over before. *)
  Lemma cycle_lemma os1 os2 :
    pv_thread (pv_run (@pv_started S) os1) = ThApplied ->
    exists rest, sent_applied (pv_run pv_started (os1 ++ PvSendApplied :: os2)) = handed pv_started os1 ++ rest.
  Proof.
    intros HT.
    assert (Hs : sent_applied (pv_run (@pv_started S) (os1 ++ [PvSendApplied])) = handed pv_started os1).
    { destruct (prov_lemma os1) as [H1 _]. cbn in H1.
      unfold pv_run. rewrite fold_left_snoc. change (fold_left pv_step os1 pv_started) with (pv_run (@pv_started S) os1).
      unfold sent_applied, pv_step. rewrite HT. cbn [pv_sent].
      rewrite sent_applied_snoc. exact H1. }
    assert (Hmono : forall os p, exists rest, sent_applied (pv_run p os) = sent_applied p ++ rest).
    { clear. induction os as [|o os IH]; intros p; cbn [pv_run fold_left]; [exists []; rewrite app_nil_r; reflexivity|].
      destruct (IH (pv_step p o)) as [r Hr]. unfold pv_run in Hr. rewrite Hr.
      assert (exists r', sent_applied (pv_step p o) = sent_applied p ++ r') as [r' Hr'].
      { unfold sent_applied. destruct o; cbn [pv_step].
        all: try (exists []; rewrite app_nil_r; reflexivity).
        - destruct (pv_created p); exists []; rewrite app_nil_r; reflexivity.
        - destruct (pv_stopping p), (pv_created p); exists []; rewrite app_nil_r; reflexivity.
        - destruct (pv_stopping p); exists []; rewrite app_nil_r; reflexivity.
        - destruct (pv_stopping p); exists []; rewrite app_nil_r; reflexivity.
        - destruct (pv_stopping p), (pv_thread p); exists []; rewrite app_nil_r; reflexivity.
        - destruct (pv_thread p), (pv_stop p); exists []; rewrite app_nil_r; reflexivity.
        - destruct (pv_thread p); try (exists []; rewrite app_nil_r; reflexivity).
          cbn [pv_sent]. rewrite sent_applied_snoc. eexists; reflexivity.
        - destruct (pv_thread p); try (exists []; rewrite app_nil_r; reflexivity).
          cbn [pv_sent]. rewrite sent_applied_snoc. eexists; reflexivity. }
      rewrite Hr', <- app_assoc. eauto. }
    replace (os1 ++ PvSendApplied :: os2) with ((os1 ++ [PvSendApplied]) ++ os2) by (rewrite <- app_assoc; reflexivity).
    unfold pv_run at 1. rewrite fold_left_app. destruct (Hmono os2 (pv_run pv_started (os1 ++ [PvSendApplied]))) as [rest Hr].
    exists rest. rewrite <- Hs. exact Hr.
  Qed.

  (** Shutdown can complete with the process withdrawal still unsent. *)
  Lemma shutdown_lost_lemma (w : S) :
    exists os, let p := pv_run (@pv_started S) os in
      pv_stopping p = StDone /\ handed pv_started os = [w] /\ pv_sent p = [].
  Proof.
    exists [PvStopPush w; PvStopTrigger; PvStopFlag; PvWake; PvStopJoin]. cbn. auto.
  Qed.
End Provider.
