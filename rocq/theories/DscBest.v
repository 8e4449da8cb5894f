(** Lemmas about the reported topics, services and types. *)
From Verif Require Import Base Sample RegModel PbModel SerModel ExpMapModel ExpMapSpec ExpMapProofs DscModel DscSpec DscProofs.
From Coq Require Import Permutation Sorted.

(** ** Orders *)
Lemma text_ltb_irr a : text_ltb a a = false.
Proof. induction a as [|x a IH]; cbn; [reflexivity|]. rewrite Z.ltb_irrefl, Z.eqb_refl, IH. reflexivity. Qed.
Lemma text_ltb_tr a : forall b c, text_ltb a b = true -> text_ltb b c = true -> text_ltb a c = true.
Proof.
  induction a as [|x a IH]; intros [|y b] [|z c]; cbn; auto; try discriminate.
  rewrite !orb_true_iff, !andb_true_iff, !Z.ltb_lt, !Z.eqb_eq. intros [L1|[E1 L1]] [L2|[E2 L2]]; try (left; lia).
  right. split; [lia|]. eapply IH; eauto.
Qed.
Lemma text_ltb_total a : forall b, a <> b -> text_ltb a b = true \/ text_ltb b a = true.
Proof.
  induction a as [|x a IH]; intros [|y b] N; cbn; auto; try congruence.
  rewrite !orb_true_iff, !andb_true_iff, !Z.ltb_lt, !Z.eqb_eq.
  destruct (Z.lt_trichotomy x y) as [L|[E|L]]; auto. subst y.
  destruct (IH b) as [H|H]; [congruence| |]; auto.
Qed.
Lemma text_ltb_none a b : text_ltb a b = false -> text_ltb b a = false -> a = b.
Proof. intros A B. destruct (eq_dec a b) as [|N]; [assumption|]. destruct (text_ltb_total a b N); congruence. Qed.

Lemma tkey_ltb_irr a : tkey_ltb a a = false.
Proof. unfold tkey_ltb. rewrite text_ltb_irr, Z.ltb_irrefl, andb_false_r. reflexivity. Qed.
Lemma tkey_ltb_spec a b : tkey_ltb a b = true <-> text_ltb (fst a) (fst b) = true \/ (fst a = fst b /\ (snd a < snd b)%Z).
Proof.
  unfold tkey_ltb. rewrite orb_true_iff, andb_true_iff, Z.ltb_lt. split; (intros [H|[H L]]; [left; assumption|right; split; [|assumption]]).
  - apply eqb_true; assumption.
  - rewrite H. apply eqb_refl.
Qed.
Lemma tkey_ltb_tr a b c : tkey_ltb a b = true -> tkey_ltb b c = true -> tkey_ltb a c = true.
Proof.
  rewrite !tkey_ltb_spec. intros [H1|[E1 L1]] [H2|[E2 L2]].
  - left. eapply text_ltb_tr; eauto.
  - left. congruence.
  - left. congruence.
  - right. split; [congruence|lia].
Qed.
Lemma tkey_ltb_total a b : a <> b -> tkey_ltb a b = true \/ tkey_ltb b a = true.
Proof.
  intros N. rewrite !tkey_ltb_spec. destruct a as [x i], b as [y j]; cbn [fst snd].
  destruct (eq_dec x y) as [->|Nx].
  - destruct (Z.lt_trichotomy i j) as [L|[E|L]]; auto. congruence.
  - destruct (text_ltb_total x y Nx); auto.
Qed.

Lemma tinfo_ltb_spec a b : tinfo_ltb a b = true <->
  (ti_quality a < ti_quality b)%Z \/ (ti_quality a = ti_quality b /\ (ti_id a < ti_id b)%Z).
Proof. unfold tinfo_ltb. rewrite orb_true_iff, andb_true_iff, !Z.ltb_lt, Z.eqb_eq. reflexivity. Qed.
Lemma tinfo_ltb_false a b : tinfo_ltb a b = false <-> ~ ((ti_quality a < ti_quality b)%Z \/ (ti_quality a = ti_quality b /\ (ti_id a < ti_id b)%Z)).
Proof. rewrite <- tinfo_ltb_spec. destruct (tinfo_ltb a b); intuition congruence. Qed.
Lemma tinfo_ltb_irr a : tinfo_ltb a a = false.
Proof. rewrite tinfo_ltb_false. lia. Qed.
Lemma tinfo_ltb_tr a b c : tinfo_ltb a b = true -> tinfo_ltb b c = true -> tinfo_ltb a c = true.
Proof. rewrite !tinfo_ltb_spec. lia. Qed.

(** ** Sets *)
Section SetLemmas.
  Context {A : Type} (lt : A -> A -> bool).
  Notation sorted := (StronglySorted (fun a b => lt a b = true)).
  Lemma set_insert_in x l y : In y (set_insert lt x l) -> y = x \/ In y l.
  Proof.
    induction l as [|z l IH]; cbn; [intuition|]. destruct (lt x z); [cbn; intuition|].
    destruct (lt z x); cbn; [|intuition]. intros [E|H]; [auto|]. destruct (IH H); auto.
  Qed.
  Lemma set_insert_keeps x l y : In y l -> In y (set_insert lt x l).
  Proof.
    induction l as [|z l IH]; cbn; [tauto|]. destruct (lt x z); [cbn; auto|]. destruct (lt z x); cbn; intuition.
  Qed.
  Context (irr : forall x, lt x x = false) (tr : forall x y z, lt x y = true -> lt y z = true -> lt x z = true).
  Lemma set_insert_covers x l : exists y, In y (set_insert lt x l) /\ lt x y = false /\ lt y x = false.
  Proof.
    induction l as [|z l IH]; cbn; [exists x; auto|]. destruct (lt x z) eqn:E1; [exists x; cbn; auto|].
    destruct (lt z x) eqn:E2; [|exists z; cbn; auto]. destruct IH as (y & H & Q). exists y. cbn. auto.
  Qed.
  Lemma set_insert_sorted x l : sorted l -> sorted (set_insert lt x l).
  Proof.
    intros S. induction S as [|z l S IH F]; cbn; [repeat constructor|].
    destruct (lt x z) eqn:E1.
    - constructor; [constructor; auto|]. constructor; [exact E1|]. rewrite Forall_forall in *. intros y Hy. eapply tr; eauto.
    - destruct (lt z x) eqn:E2; [|constructor; auto]. constructor; [exact IH|].
      rewrite Forall_forall in *. intros y Hy. apply set_insert_in in Hy as [->|Hy]; auto.
  Qed.
  Lemma set_all_in xs : forall l y, In y (set_all lt xs l) -> In y xs \/ In y l.
  Proof.
    induction xs as [|x xs IH]; cbn; intros l y H; [auto|]. apply IH in H as [H|H]; [auto|].
    apply set_insert_in in H as [->|H]; auto.
  Qed.
  Lemma set_all_keeps xs : forall l y, In y l -> In y (set_all lt xs l).
  Proof. induction xs as [|x xs IH]; cbn; intros l y H; [exact H|]. apply IH. apply set_insert_keeps; exact H. Qed.
  Lemma set_all_covers xs : forall l x, In x xs -> exists y, In y (set_all lt xs l) /\ lt x y = false /\ lt y x = false.
  Proof.
    induction xs as [|z xs IH]; cbn; intros l x H; [tauto|]. destruct H as [->|H]; [|apply IH; exact H].
    destruct (set_insert_covers x l) as (y & H & Q). exists y. split; [|exact Q]. apply (set_all_keeps xs). exact H.
  Qed.
  Lemma set_all_sorted xs : forall l, sorted l -> sorted (set_all lt xs l).
  Proof. induction xs as [|x xs IH]; cbn; intros l S; [exact S|]. apply IH. apply set_insert_sorted; exact S. Qed.
End SetLemmas.

Lemma with_name_in {N V} `{EqDec N} (n : N) (l : list (N * V)) i : In i (with_name n l) <-> In (n, i) l.
Proof.
  unfold with_name. rewrite in_map_iff. split.
  - intros ([m v] & E & Hf). cbn in E. subst v. apply filter_In in Hf as [Hi Eq]. cbn in Eq. apply eqb_true in Eq. congruence.
  - intros Hi. exists (n, i). split; [reflexivity|]. apply filter_In. split; [exact Hi|]. apply eqb_refl.
Qed.
Lemma with_name_app {N V} `{EqDec N} (n : N) (a b : list (N * V)) : with_name n (a ++ b) = with_name n a ++ with_name n b.
Proof. unfold with_name. rewrite filter_app, map_app. reflexivity. Qed.

(** ** The best topic *)
Definition pick (b i : tinfo) : tinfo := if (ti_quality b <? ti_quality i)%Z then i else b.
Lemma pick_fold l : forall b, let r := fold_left pick l b in
  (r = b /\ (forall j, In j l -> (ti_quality j <= ti_quality b)%Z)) \/
  (exists l1 l2, l = l1 ++ r :: l2 /\ (ti_quality b < ti_quality r)%Z /\
     (forall j, In j l1 -> (ti_quality j < ti_quality r)%Z) /\ (forall j, In j l2 -> (ti_quality j <= ti_quality r)%Z)).
Proof.
  induction l as [|i l IH]; intros b; cbn [fold_left]; cbv zeta.
  - left. split; [reflexivity|]. intros j [].
  - specialize (IH (pick b i)). cbv zeta in IH. set (r := fold_left pick l (pick b i)) in *. clearbody r.
    unfold pick in IH. destruct (Z.ltb_spec (ti_quality b) (ti_quality i)) as [L|L].
    + right. destruct IH as [(-> & A)|(l1 & l2 & -> & Lr & A1 & A2)].
      * exists [], l. repeat split; auto. intros j [].
      * exists (i :: l1), l2. repeat split; auto; [lia|]. intros j [<-|Hj]; auto.
    + destruct IH as [(-> & A)|(l1 & l2 & -> & Lr & A1 & A2)].
      * left. split; [reflexivity|]. intros j [<-|Hj]; auto.
      * right. exists (i :: l1), l2. repeat split; auto. intros j [<-|Hj]; [lia|auto].
Qed.

Definition best_in (i : tinfo) (l : list tinfo) : Prop :=
  In i l /\ forall j, In j l -> (ti_quality j < ti_quality i)%Z \/ (ti_quality j = ti_quality i /\ (ti_id i <= ti_id j)%Z).

Lemma sorted_mid {A} (R : A -> A -> Prop) l1 x l2 : StronglySorted R (l1 ++ x :: l2) -> forall y, In y l2 -> R x y.
Proof.
  induction l1 as [|z l1 IH]; cbn; intros S.
  - inversion S as [|? ? _ F]; subst. rewrite Forall_forall in F. exact F.
  - inversion S; subst. auto.
Qed.

Lemma best_topic_sorted l : StronglySorted (fun a b => tinfo_ltb a b = true) l -> (forall j, In j l -> (0 <= ti_quality j)%Z) ->
  best_in (best_topic l) l \/ (best_topic l = tinfo0 /\ forall j, In j l -> ti_quality j = 0%Z).
Proof.
  intros S P. unfold best_topic. fold pick.
  destruct (pick_fold l tinfo0) as [(E & A)|(l1 & l2 & E & Lr & A1 & A2)].
  - right. split; [exact E|]. intros j Hj. specialize (A j Hj). specialize (P j Hj). cbn in A. lia.
  - left. change (fun b i : tinfo => if (ti_quality b <? ti_quality i)%Z then i else b) with pick in *.
    set (r := fold_left pick l tinfo0) in *. clearbody r. subst l. split; [apply in_app_iff; right; left; reflexivity|].
    intros j Hj. apply in_app_iff in Hj as [Hj|[<-|Hj]].
    + left; auto.
    + right; split; [reflexivity|lia].
    + right. pose proof (sorted_mid _ _ _ _ S j Hj) as Q. apply tinfo_ltb_spec in Q. specialize (A2 j Hj). lia.
Qed.

(** ** The reduced map *)
Definition opick (o : option tinfo) (i : tinfo) : option tinfo := match o with None => Some i | Some b => Some (pick b i) end.
Lemma reduce_fold n l : forall m, aget n (fold_left reduce_topic l m) = fold_left opick (with_name n l) (aget n m).
Proof.
  induction l as [|[x i] l IH]; intros m; cbn [fold_left]; [reflexivity|].
  rewrite IH. unfold with_name. cbn [filter fst]. unfold reduce_topic. cbn [fst snd].
  destruct (eqb x n) eqn:E.
  - apply eqb_true in E. subst x. cbn [map fold_left snd]. f_equal. unfold opick, pick.
    destruct (aget n m) as [b|] eqn:G; [|apply aget_aset_same].
    destruct (ti_quality b <? ti_quality i)%Z; [apply aget_aset_same|exact G].
  - apply eqb_false in E. f_equal.
    destruct (aget x m) as [b|]; [|apply aget_aset_other; congruence].
    destruct (ti_quality b <? ti_quality i)%Z; [apply aget_aset_other; congruence|reflexivity].
Qed.
Lemma opick_some l : forall b, fold_left opick l (Some b) = Some (fold_left pick l b).
Proof. induction l as [|i l IH]; intros b; cbn; [reflexivity|apply IH]. Qed.
Lemma reduce_nodup l : forall m, NoDup (keys m) -> NoDup (keys (fold_left reduce_topic l m)).
Proof.
  induction l as [|p l IH]; intros m N; cbn; [exact N|]. apply IH. unfold reduce_topic.
  destruct (aget (fst p) m) as [b|]; [|apply nodup_aset; exact N]. destruct (_ <? _)%Z; [apply nodup_aset|]; exact N.
Qed.

(** Two listings as the gate gives them: sorted by id, unique, the first with odd and the
    second with even quality. *)
Record shaped (l : list (text * tinfo)) : Prop := {
  sh_sorted : forall n, StronglySorted (fun a b => (ti_id a < ti_id b)%Z) (with_name n l);
  sh_grade : forall n i, In (n, i) l -> (0 <= ti_quality i)%Z /\ (ti_quality i = 0%Z -> ti_info i = dt0) }.
Definition odd_quality (l : list (text * tinfo)) := forall n i, In (n, i) l -> Z.odd (ti_quality i) = true.
Definition even_quality (l : list (text * tinfo)) := forall n i, In (n, i) l -> Z.odd (ti_quality i) = false.

Lemma ssorted_id_inj l : StronglySorted (fun a b => (ti_id a < ti_id b)%Z) l -> forall i j, In i l -> In j l -> ti_id i = ti_id j -> i = j.
Proof.
  intros S. induction S as [|x l S IH F]; intros i j Hi Hj E; [destruct Hi|].
  rewrite Forall_forall in F. destruct Hi as [<-|Hi]; destruct Hj as [<-|Hj]; auto.
  - specialize (F _ Hj). lia.
  - specialize (F _ Hi). lia.
Qed.

Lemma best_unique pubs subs n i j : shaped pubs -> shaped subs -> odd_quality pubs -> even_quality subs ->
  best_in i (with_name n (pubs ++ subs)) -> best_in j (with_name n (pubs ++ subs)) -> i = j.
Proof.
  intros Sp Ss Op Es [Hi Bi] [Hj Bj]. specialize (Bi j Hj). specialize (Bj i Hi).
  assert (ti_quality i = ti_quality j /\ ti_id i = ti_id j) as [Eq Ei] by lia.
  rewrite with_name_app in Hi, Hj. apply in_app_iff in Hi. apply in_app_iff in Hj.
  destruct Hi as [Hi|Hi]; destruct Hj as [Hj|Hj].
  - exact (ssorted_id_inj _ (sh_sorted _ Sp n) i j Hi Hj Ei).
  - apply with_name_in in Hi. apply with_name_in in Hj. pose proof (Op _ _ Hi). pose proof (Es _ _ Hj). congruence.
  - apply with_name_in in Hi. apply with_name_in in Hj. pose proof (Op _ _ Hj). pose proof (Es _ _ Hi). congruence.
  - exact (ssorted_id_inj _ (sh_sorted _ Ss n) i j Hi Hj Ei).
Qed.

(** Order of two entries of equal quality in the joined listing. *)
Lemma joined_order pubs subs n l1 x l2 y : shaped pubs -> shaped subs -> odd_quality pubs -> even_quality subs ->
  with_name n (pubs ++ subs) = l1 ++ x :: l2 -> In y l2 -> ti_quality y = ti_quality x -> (ti_id x < ti_id y)%Z.
Proof.
  intros Sp Ss Op Es E Hy Eq. rewrite with_name_app in E.
  pose proof (sh_sorted _ Sp n) as S1. pose proof (sh_sorted _ Ss n) as S2.
  assert (forall i, In i (with_name n pubs) -> Z.odd (ti_quality i) = true) as O1 by (intros i Hi; apply (Op n); apply with_name_in; exact Hi).
  assert (forall i, In i (with_name n subs) -> Z.odd (ti_quality i) = false) as O2 by (intros i Hi; apply (Es n); apply with_name_in; exact Hi).
  revert E S1 O1. generalize (with_name n pubs) as a. clear Sp Op. revert S2 O2. generalize (with_name n subs) as b. clear Ss Es.
  intros b S2 O2 a. revert l1. induction a as [|z a IH]; intros l1 E S1 O1.
  - cbn in E. subst b. exact (sorted_mid _ _ _ _ S2 y Hy).
  - destruct l1 as [|w l1]; cbn in E.
    + injection E as -> E. subst l2. apply in_app_iff in Hy as [Hy|Hy].
      * inversion S1 as [|? ? _ F]; subst. rewrite Forall_forall in F. auto.
      * exfalso. specialize (O2 y Hy). specialize (O1 x (or_introl eq_refl)). congruence.
    + injection E as _ E. inversion S1; subst. apply (IH l1 E); auto. intros i Hi. apply O1. right; exact Hi.
Qed.

Lemma reduced_best pubs subs n : shaped pubs -> shaped subs -> odd_quality pubs -> even_quality subs ->
  match aget n (ut_topics pubs subs) with
  | Some i => best_in i (with_name n (pubs ++ subs))
  | None => with_name n (pubs ++ subs) = []
  end.
Proof.
  intros Sp Ss Op Es. unfold ut_topics. rewrite reduce_fold. cbn [aget].
  destruct (with_name n (pubs ++ subs)) as [|x l] eqn:E; cbn [fold_left]; [reflexivity|].
  cbn [opick]. rewrite opick_some.
  destruct (pick_fold l x) as [(Er & A)|(l1 & l2 & Er & Lr & A1 & A2)].
  - rewrite Er. split; [left; reflexivity|]. intros j [<-|Hj]; [right; lia|].
    specialize (A j Hj). destruct (Z.eq_dec (ti_quality j) (ti_quality x)) as [Eq|]; [|left; lia].
    right. split; [exact Eq|]. pose proof (joined_order pubs subs n [] x l j Sp Ss Op Es E Hj Eq). lia.
  - set (r := fold_left pick l x) in *. clearbody r. split; [right; rewrite Er; apply in_app_iff; right; left; reflexivity|].
    intros j [<-|Hj]; [left; lia|]. rewrite Er in Hj. apply in_app_iff in Hj as [Hj|[<-|Hj]]; [left; auto|right; lia|].
    specialize (A2 j Hj). destruct (Z.eq_dec (ti_quality j) (ti_quality r)) as [Eq|]; [|left; lia].
    right. split; [exact Eq|]. rewrite Er in E.
    pose proof (joined_order pubs subs n (x :: l1) r l2 j Sp Ss Op Es E Hj Eq). lia.
Qed.

Lemma type_info_agrees pubs subs n : shaped pubs -> shaped subs -> odd_quality pubs -> even_quality subs ->
  ut_type_info n pubs subs = match aget n (ut_topics pubs subs) with Some i => (true, ti_info i) | None => (false, dt0) end.
Proof.
  intros Sp Ss Op Es. pose proof (reduced_best pubs subs n Sp Ss Op Es) as RB.
  unfold ut_type_info. set (s1 := set_all tinfo_ltb (with_name n pubs) []).
  set (s2 := set_all tinfo_ltb (with_name n subs) []). set (s := set_all tinfo_ltb s2 s1).
  assert (forall y, In y s -> In y (with_name n (pubs ++ subs))) as Sub.
  { intros y Hy. rewrite with_name_app. apply in_app_iff. unfold s in Hy. apply set_all_in in Hy as [Hy|Hy].
    - unfold s2 in Hy. apply set_all_in in Hy as [Hy|[]]. auto.
    - unfold s1 in Hy. apply set_all_in in Hy as [Hy|[]]. auto. }
  assert (forall x, In x (with_name n (pubs ++ subs)) -> exists y, In y s /\ ti_quality y = ti_quality x /\ ti_id y = ti_id x) as Cov.
  { intros x Hx. rewrite with_name_app in Hx. apply in_app_iff in Hx as [Hx|Hx].
    - destruct (set_all_covers tinfo_ltb tinfo_ltb_irr _ [] x Hx) as (y & Hy & A & B). fold s1 in Hy.
      exists y. split; [apply (set_all_keeps tinfo_ltb s2); exact Hy|]. apply tinfo_ltb_false in A. apply tinfo_ltb_false in B. lia.
    - destruct (set_all_covers tinfo_ltb tinfo_ltb_irr _ [] x Hx) as (y & Hy & A & B). fold s2 in Hy.
      destruct (set_all_covers tinfo_ltb tinfo_ltb_irr _ s1 y Hy) as (z & Hz & C & D). fold s in Hz.
      exists z. split; [exact Hz|]. rewrite tinfo_ltb_false in A, B, C, D. lia. }
  assert (StronglySorted (fun a b => tinfo_ltb a b = true) s) as Srt.
  { apply (set_all_sorted tinfo_ltb tinfo_ltb_tr). apply (set_all_sorted tinfo_ltb tinfo_ltb_tr). constructor. }
  assert (forall j, In j s -> (0 <= ti_quality j)%Z /\ (ti_quality j = 0%Z -> ti_info j = dt0)) as Gr.
  { intros j Hj. apply Sub in Hj. rewrite with_name_app in Hj. apply in_app_iff in Hj as [Hj|Hj]; apply with_name_in in Hj.
    - exact (sh_grade _ Sp _ _ Hj).
    - exact (sh_grade _ Ss _ _ Hj). }
  destruct (aget n (ut_topics pubs subs)) as [i|].
  - destruct (Cov i (proj1 RB)) as (y & Hy & _).
    assert (negb match s with [] => true | _ :: _ => false end = true) as -> by (destruct s; [destruct Hy|reflexivity]).
    f_equal. destruct (best_topic_sorted s Srt (fun j Hj => proj1 (Gr j Hj))) as [B|[E Z0]].
    + f_equal. apply (best_unique pubs subs n); auto. destruct B as [Hb B]. split; [apply Sub; exact Hb|].
      intros j Hj. destruct (Cov j Hj) as (z & Hz & Eq & Ei). specialize (B z Hz). lia.
    + rewrite E. destruct RB as [Hi _]. destruct (Cov i Hi) as (z & Hz & Eq & Ei). specialize (Z0 z Hz).
      rewrite with_name_app in Hi. symmetry. apply in_app_iff in Hi as [Hi|Hi]; apply with_name_in in Hi.
      * apply (proj2 (sh_grade _ Sp _ _ Hi)). congruence.
      * apply (proj2 (sh_grade _ Ss _ _ Hi)). congruence.
  - assert (s = []) as ->. { destruct s as [|y s']; [reflexivity|]. exfalso. specialize (Sub y (or_introl eq_refl)). rewrite RB in Sub. destruct Sub. }
    reflexivity.
Qed.

(** ** The gate's listings are of that shape *)
Lemma with_name_sorted (c : list ((text * Z) * tinfo)) n :
  StronglySorted (fun a b => tkey_ltb (fst a) (fst b) = true) c -> (forall k v, In (k, v) c -> ti_id v = snd k) ->
  StronglySorted (fun a b => (ti_id a < ti_id b)%Z) (with_name n (map (fun p => (fst (fst p), snd p)) c)).
Proof.
  intros S Id. induction S as [|[[x id] v] c S IH F]; cbn; [constructor|].
  assert (forall k w, In (k, w) c -> ti_id w = snd k) as Id' by (intros k w H; apply Id; right; exact H).
  specialize (IH Id'). unfold with_name in *. cbn [filter map fst snd].
  destruct (eqb x n) eqn:E; [|exact IH]. apply eqb_true in E. subst x. cbn [map snd].
  constructor; [exact IH|]. rewrite Forall_forall in *. intros w Hw.
  apply in_map_iff in Hw as ([y w'] & E1 & Hw). cbn in E1. subst w'. apply filter_In in Hw as [Hw Ey]. cbn in Ey. apply eqb_true in Ey. subst y.
  apply in_map_iff in Hw as ([[z id2] w2] & E2 & Hw). cbn in E2. injection E2 as -> ->.
  specialize (F _ Hw). cbn [fst] in F. apply tkey_ltb_spec in F as [F|[_ F]]; cbn [fst snd] in F; [rewrite text_ltb_irr in F; discriminate|].
  rewrite (Id (n, id) v (or_introl eq_refl)), (Id' (n, id2) w Hw). exact F.
Qed.

Lemma grade_range d p : (0 <= grade d p)%Z /\ (grade d p = 0%Z -> d = dt0) /\ Z.odd (grade d p) = p.
Proof.
  unfold grade, one_if, given. destruct d as [n e c]; cbn [dt_name dt_encoding dt_desc].
  destruct (eqb n []) eqn:En; destruct (eqb e []) eqn:Ee; destruct (eqb c []) eqn:Ec; destruct p; cbn; (split; [lia|]; split; [|reflexivity]);
    try discriminate; intros _; apply eqb_true in En; apply eqb_true in Ee; apply eqb_true in Ec; subst; reflexivity.
Qed.

Lemma topics_shaped timeout t now m reg unreg producer cmds h : (t <= now)%Z ->
  (forall c, cmds c = true <-> c = reg \/ c = unreg) ->
  tracks timeout t m (lat (topic_eff reg unreg producer) h) ->
  shaped (snd (topics_of now m)) /\ forall n i, In (n, i) (snd (topics_of now m)) -> Z.odd (ti_quality i) = producer.
Proof.
  intros L Hc T. pose proof (topics_listing timeout t now m reg unreg producer cmds h L Hc T) as [Li _].
  assert (forall n i, In (n, i) (snd (topics_of now m)) ->
            (0 <= ti_quality i)%Z /\ (ti_quality i = 0%Z -> ti_info i = dt0) /\ Z.odd (ti_quality i) = producer) as G.
  { intros n i Hi. apply Li in Hi as (d & Ei & _). rewrite Ei. cbn [ti_quality ti_info]. apply grade_range. }
  split; [|intros n i Hi; apply (G n i Hi)]. constructor; [|intros n i Hi; destruct (G n i Hi) as (A & B & _); auto].
  intros n. destruct (listed_in tinfo0 timeout t now m _ L T) as [Hi Nd]. unfold topics_of. cbn [snd].
  set (c := em_contents (fst (em_erase_expired now m))) in *.
  pose proof (sort_perm (fun a b : (text * Z) * tinfo => tkey_ltb (fst a) (fst b)) c) as P.
  apply with_name_sorted.
  - apply (sort_sorted (fun a b : (text * Z) * tinfo => tkey_ltb (fst a) (fst b))).
    + intros x y z. apply tkey_ltb_tr.
    + eapply NoDup_map_inv; exact Nd.
    + intros [k v] [k' v'] H1 H2 N. cbn [fst]. apply tkey_ltb_total. intros ->. apply N.
      apply Hi in H1 as (ts & E1 & _). apply Hi in H2 as (ts' & E2 & _). congruence.
  - intros [nm id] v H. apply (Permutation_in _ (Permutation_sym P)) in H. apply Hi in H.
    apply (topic_alive_lat reg unreg producer cmds) in H as (d & -> & _); auto.
Qed.

Section Gate.
  Variables (os : list (Z * dgop)) (timeout now : Z) (g : dgate).
  Hypothesis U : upwards (map fst os ++ [now]).
  Hypothesis R : dg_run os (dg_new timeout) = DOk g.
  Let pubs := snd (dg_publishers now g).
  Let subs := snd (dg_subscribers now g).
  Lemma gate_shaped : shaped pubs /\ shaped subs /\ odd_quality pubs /\ even_quality subs.
  Proof.
    destruct (run_inv timeout now os g U R) as (t & G & L).
    destruct (topics_shaped timeout t now _ _ _ _ _ _ L pub_cmds (gi_pub _ _ _ _ G)) as [A B].
    destruct (topics_shaped timeout t now _ _ _ _ _ _ L sub_cmds (gi_sub _ _ _ _ G)) as [C D].
    exact (conj A (conj C (conj B D))).
  Qed.

  Lemma topics_lemma n :
    match aget n (ut_topics pubs subs) with
    | Some i => best_topic_of i n (pubs ++ subs)
    | None => forall i, ~ In (n, i) (pubs ++ subs)
    end /\
    ut_type_info n pubs subs = (match aget n (ut_topics pubs subs) with Some i => (true, ti_info i) | None => (false, dt0) end).
  Proof.
    destruct gate_shaped as (A & B & C & D). split; [|apply type_info_agrees; assumption].
    pose proof (reduced_best pubs subs n A B C D) as RB. destruct (aget n (ut_topics pubs subs)) as [i|].
    - destruct RB as [Hi RB]. split; [apply with_name_in; exact Hi|]. intros j Hj. apply RB. apply with_name_in; exact Hj.
    - intros i Hi. apply with_name_in in Hi. rewrite RB in Hi. destruct Hi.
  Qed.
End Gate.

Lemma topic_names_lemma pubs subs :
  StronglySorted (fun a b => text_ltb a b = true) (ut_topic_names pubs subs) /\
  forall n, In n (ut_topic_names pubs subs) <-> exists i, In (n, i) (pubs ++ subs).
Proof.
  split.
  - apply (set_all_sorted text_ltb (fun x y z => text_ltb_tr x y z)). apply (set_all_sorted text_ltb (fun x y z => text_ltb_tr x y z)). constructor.
  - intros n. unfold ut_topic_names. split.
    + intros H. apply set_all_in in H as [H|H].
      * apply in_map_iff in H as ([m i] & <- & H). exists i. apply in_app_iff; auto.
      * apply set_all_in in H as [H|[]]. apply in_map_iff in H as ([m i] & <- & H). exists i. apply in_app_iff; auto.
    + intros (i & H). apply in_app_iff in H as [H|H]; apply (in_map fst) in H; cbn [fst] in H.
      * destruct (set_all_covers text_ltb text_ltb_irr _ [] n H) as (y & Hy & A & B). rewrite (text_ltb_none _ _ A B).
        apply (set_all_keeps text_ltb). exact Hy.
      * destruct (set_all_covers text_ltb text_ltb_irr _ (set_all text_ltb (map fst pubs) []) n H) as (y & Hy & A & B).
        rewrite (text_ltb_none _ _ A B). exact Hy.
Qed.
Lemma sorted_nodup (l : list text) : StronglySorted (fun a b => text_ltb a b = true) l -> NoDup l.
Proof.
  intros S. induction S as [|x l S IH F]; constructor; auto. intros Hi. rewrite Forall_forall in F.
  specialize (F _ Hi). rewrite text_ltb_irr in F. discriminate.
Qed.

(** ** Methods *)
Definition spick (b i : sinfo) : sinfo := if better_service b i then i else b.
Definition same_quality (a b : sinfo) := si_reqq a = si_reqq b /\ si_respq a = si_respq b.
Lemma spick_in l : forall b, fold_left spick l b = b \/ In (fold_left spick l b) l.
Proof.
  induction l as [|i l IH]; intros b; cbn; [auto|]. destruct (IH (spick b i)) as [E|H]; [|auto].
  rewrite E. unfold spick. destruct (better_service b i); auto.
Qed.
(** Once the dominating quality is reached it is kept. *)
Lemma spick_top l : forall b, (forall j, In j l -> (si_reqq j <= si_reqq b)%Z /\ (si_respq j <= si_respq b)%Z) -> fold_left spick l b = b.
Proof.
  induction l as [|i l IH]; intros b D; cbn; [reflexivity|].
  assert (spick b i = b) as ->.
  { unfold spick, better_service. destruct (D i (or_introl eq_refl)) as [A B].
    destruct (Z.ltb_spec (si_reqq b) (si_reqq i)); [lia|]. destruct (Z.ltb_spec (si_respq b) (si_respq i)); [lia|]. reflexivity. }
  apply IH. intros j Hj. apply D. right; exact Hj.
Qed.
Lemma spick_reaches l i : In i l -> (forall j, In j l -> (si_reqq j <= si_reqq i)%Z /\ (si_respq j <= si_respq i)%Z) ->
  forall b, (si_reqq b <= si_reqq i)%Z /\ (si_respq b <= si_respq i)%Z -> same_quality (fold_left spick l b) i.
Proof.
  induction l as [|x l IH]; intros Hi D b Db; [destruct Hi|]. cbn.
  assert ((si_reqq (spick b x) <= si_reqq i)%Z /\ (si_respq (spick b x) <= si_respq i)%Z) as Dx.
  { unfold spick. destruct (better_service b x); [apply D; left; reflexivity|exact Db]. }
  destruct Hi as [<-|Hi].
  - assert (same_quality (spick b x) x) as Q.
    { unfold spick, better_service, same_quality.
      destruct (Z.ltb_spec (si_reqq b) (si_reqq x)); [cbn; auto|]. destruct (Z.ltb_spec (si_respq b) (si_respq x)); [cbn; auto|]. cbn. lia. }
    rewrite spick_top; [exact Q|]. intros j Hj. destruct Q as [-> ->]. apply D. right; exact Hj.
  - apply IH; auto. intros j Hj. apply D. right; exact Hj.
Qed.

(** The qualities of a listing of methods. *)
Definition mshaped (l : list ((text * text) * sinfo)) := forall n i, In (n, i) l ->
  (0 <= si_reqq i)%Z /\ (0 <= si_respq i)%Z /\ (si_reqq i = 0%Z -> si_req i = dt0) /\ (si_respq i = 0%Z -> si_resp i = dt0).

Lemma sinfo_ltb_none a b : sinfo_ltb a b = false -> sinfo_ltb b a = false -> same_quality a b /\ si_id a = si_id b.
Proof.
  unfold sinfo_ltb, same_quality.
  destruct (Z.ltb_spec (si_reqq a) (si_reqq b)); [discriminate|]. destruct (Z.ltb_spec (si_reqq b) (si_reqq a)); [discriminate|].
  assert (si_reqq a = si_reqq b) as -> by lia. rewrite Z.eqb_refl. cbn.
  destruct (Z.ltb_spec (si_respq a) (si_respq b)); [discriminate|]. destruct (Z.ltb_spec (si_respq b) (si_respq a)); [discriminate|].
  assert (si_respq a = si_respq b) as -> by lia. rewrite Z.eqb_refl. cbn.
  intros A B. apply Z.ltb_ge in A. apply Z.ltb_ge in B. lia.
Qed.
Lemma sinfo_ltb_irr a : sinfo_ltb a a = false.
Proof. unfold sinfo_ltb. rewrite !Z.ltb_irrefl, !Z.eqb_refl. reflexivity. Qed.

Lemma best_service_some s srvs n : mshaped srvs -> (forall y, In y s -> In (n, y) srvs) -> s <> [] ->
  exists i, In (n, i) srvs /\ si_req (best_service s) = si_req i /\ si_resp (best_service s) = si_resp i /\ same_quality (best_service s) i.
Proof.
  intros M Sub N. unfold best_service.
  change (fun b i : sinfo => if better_service b i then i else b) with spick.
  destruct (spick_in s sinfo0) as [E|H].
  - rewrite E. destruct s as [|x l]; [congruence|]. exists x. pose proof (Sub x (or_introl eq_refl)) as Hx.
    destruct (M _ _ Hx) as (A & B & C & D). split; [exact Hx|].
    (* every entry has quality zero, or the default would have been replaced *)
    assert (better_service sinfo0 x = false) as Bx.
    { destruct (better_service sinfo0 x) eqn:Bx; [|reflexivity]. exfalso. cbn in E. unfold spick in E at 2. rewrite Bx in E.
      assert (forall l b, (0 <= si_reqq b)%Z /\ (0 <= si_respq b)%Z /\ ((0 < si_reqq b)%Z \/ (0 < si_respq b)%Z) ->
                (forall j, In j l -> (0 <= si_reqq j)%Z /\ (0 <= si_respq j)%Z) ->
                ((0 < si_reqq (fold_left spick l b))%Z \/ (0 < si_respq (fold_left spick l b))%Z)) as K.
      { clear. induction l as [|i l IH]; intros b (Q1 & Q2 & Q3) F; cbn; [exact Q3|]. apply IH; [|intros j Hj; apply F; right; exact Hj].
        destruct (F i (or_introl eq_refl)) as [F1 F2]. unfold spick, better_service.
        destruct (Z.ltb_spec (si_reqq b) (si_reqq i)); [cbn; lia|]. destruct (Z.ltb_spec (si_respq b) (si_respq i)); cbn; lia. }
      unfold better_service in Bx. apply orb_true_iff in Bx. rewrite !Z.ltb_lt in Bx. cbn in Bx.
      destruct (K l x) as [K1|K1]; [lia| |rewrite E in K1; cbn in K1; lia|rewrite E in K1; cbn in K1; lia].
      intros j Hj. destruct (M _ _ (Sub j (or_intror Hj))) as (F1 & F2 & _). auto. }
    unfold better_service in Bx. apply orb_false_iff in Bx as [B1 B2]. apply Z.ltb_ge in B1. apply Z.ltb_ge in B2. cbn in B1, B2.
    cbn. rewrite C, D by lia. unfold same_quality. cbn. repeat split; auto; lia.
  - exists (fold_left spick s sinfo0). unfold same_quality. auto.
Qed.

Lemma method_info_lemma n srvs : mshaped srvs ->
  (fst (ut_method_info n srvs) = true <-> exists i, In (n, i) srvs) /\
  (fst (ut_method_info n srvs) = true -> exists i, In (n, i) srvs /\ si_req (snd (ut_method_info n srvs)) = si_req i /\
       si_resp (snd (ut_method_info n srvs)) = si_resp i) /\
  (forall b, best_method_of b n srvs -> si_reqq (snd (ut_method_info n srvs)) = si_reqq b /\ si_respq (snd (ut_method_info n srvs)) = si_respq b).
Proof.
  intros M. unfold ut_method_info. cbn [fst snd]. set (s := set_all sinfo_ltb (with_name n srvs) []).
  assert (forall y, In y s -> In (n, y) srvs) as Sub.
  { intros y Hy. unfold s in Hy. apply set_all_in in Hy as [Hy|[]]. apply with_name_in; exact Hy. }
  assert (forall x, In (n, x) srvs -> exists y, In y s /\ same_quality x y /\ si_id x = si_id y) as Cov.
  { intros x Hx. apply with_name_in in Hx. destruct (set_all_covers sinfo_ltb sinfo_ltb_irr _ [] x Hx) as (y & Hy & A & B).
    exists y. split; [exact Hy|]. apply sinfo_ltb_none; assumption. }
  assert (negb match s with [] => true | _ :: _ => false end = true <-> s <> []) as Ne by (destruct s; cbn; intuition congruence).
  split; [|split].
  - rewrite Ne. split.
    + intros N. destruct s as [|y s']; [congruence|]. exists y. apply Sub. left; reflexivity.
    + intros (i & Hi) E. destruct (Cov i Hi) as (y & Hy & _). rewrite E in Hy. destruct Hy.
  - intros N. apply Ne in N. destruct (best_service_some s srvs n M Sub N) as (i & A & B & C & _). eauto.
  - intros b [Hb D]. destruct (Cov b Hb) as (y & Hy & [E1 E2] & _). destruct (M _ _ Hb) as (P1 & P2 & _).
    assert (same_quality (fold_left spick s sinfo0) y) as [Q1 Q2].
    { apply spick_reaches; [exact Hy| |cbn; lia]. intros j Hj. specialize (D j (Sub j Hj)). lia. }
    unfold best_service. change (fun b i : sinfo => if better_service b i then i else b) with spick. lia.
Qed.

(** ReduceQualityServiceIdMap. *)
Definition ospick (o : option sinfo) (i : sinfo) : option sinfo := match o with None => Some i | Some b => Some (spick b i) end.
Lemma sreduce_fold n l : forall m, aget n (fold_left reduce_service l m) = fold_left ospick (with_name n l) (aget n m).
Proof.
  induction l as [|[x i] l IH]; intros m; cbn [fold_left]; [reflexivity|].
  rewrite IH. unfold with_name. cbn [filter fst]. unfold reduce_service. cbn [fst snd].
  destruct (eqb x n) eqn:E.
  - apply eqb_true in E. subst x. cbn [map fold_left snd]. f_equal. unfold ospick, spick.
    destruct (aget n m) as [b|] eqn:G; [|apply aget_aset_same].
    destruct (better_service b i); [apply aget_aset_same|exact G].
  - apply eqb_false in E. f_equal.
    destruct (aget x m) as [b|]; [|apply aget_aset_other; congruence].
    destruct (better_service b i); [apply aget_aset_other; congruence|reflexivity].
Qed.
Lemma ospick_some l : forall b, fold_left ospick l (Some b) = Some (fold_left spick l b).
Proof. induction l as [|i l IH]; intros b; cbn; [reflexivity|apply IH]. Qed.

Lemma services_map_lemma n srvs :
  match aget n (ut_services srvs) with
  | Some i => In (n, i) srvs /\ forall b, best_method_of b n srvs -> si_reqq i = si_reqq b /\ si_respq i = si_respq b
  | None => forall i, ~ In (n, i) srvs
  end.
Proof.
  unfold ut_services. rewrite sreduce_fold. cbn [aget].
  destruct (with_name n srvs) as [|x l] eqn:E; cbn [fold_left].
  - intros i Hi. apply with_name_in in Hi. rewrite E in Hi. destruct Hi.
  - cbn [ospick]. rewrite ospick_some. split.
    + apply with_name_in. rewrite E. destruct (spick_in l x) as [->|H]; [left; reflexivity|right; exact H].
    + intros b [Hb D]. apply with_name_in in Hb. rewrite E in Hb.
      assert (forall j, In j (x :: l) -> (si_reqq j <= si_reqq b)%Z /\ (si_respq j <= si_respq b)%Z) as D'.
      { intros j Hj. apply D. apply with_name_in. rewrite E. exact Hj. }
      destruct Hb as [<-|Hb].
      * rewrite spick_top; [auto|]. intros j Hj. apply D'. right; exact Hj.
      * apply (spick_reaches l b Hb); [intros j Hj; apply D'; right; exact Hj|apply D'; left; reflexivity].
Qed.

Lemma services_mshaped os timeout now g : upwards (map fst os ++ [now]) -> dg_run os (dg_new timeout) = DOk g ->
  mshaped (snd (dg_services now g)) /\ mshaped (snd (dg_clients now g)).
Proof.
  intros U R. split.
  - intros [n x] i Hi. apply (services_lemma os timeout now g U R) in Hi as (me & -> & _). cbn.
    repeat split; try apply grade_range.
  - intros [n x] i Hi. apply (clients_lemma os timeout now g U R) in Hi as (me & -> & _). cbn.
    repeat split; try apply grade_range.
Qed.

Lemma methods_lemma os timeout now g : upwards (map fst os ++ [now]) -> dg_run os (dg_new timeout) = DOk g ->
  forall l n, l = snd (dg_services now g) \/ l = snd (dg_clients now g) ->
    ((fst (ut_method_info n l) = true <-> exists i, In (n, i) l) /\
     (fst (ut_method_info n l) = true -> exists i, In (n, i) l /\ si_req (snd (ut_method_info n l)) = si_req i /\
        si_resp (snd (ut_method_info n l)) = si_resp i) /\
     (forall b, best_method_of b n l -> si_reqq (snd (ut_method_info n l)) = si_reqq b /\ si_respq (snd (ut_method_info n l)) = si_respq b)) /\
    match aget n (ut_services l) with
    | Some i => In (n, i) l /\ forall b, best_method_of b n l -> si_reqq i = si_reqq b /\ si_respq i = si_respq b
    | None => forall i, ~ In (n, i) l
    end.
Proof.
  intros U R l n E. destruct (services_mshaped os timeout now g U R) as [A B]. split; [|apply services_map_lemma].
  apply method_info_lemma. destruct E as [->| ->]; assumption.
Qed.

(** ** Counterexamples *)
Lemma two_hosts_lemma :
  exists s1 s2 s3 g, sm_host s1 <> sm_host s2 /\ sm_host s3 = sm_host s2 /\
    plain (sm_entity s1) /\ sm_entity s2 = sm_entity s1 /\ sm_entity s3 = sm_entity s1 /\
    sm_cmd s1 = bct_reg_publisher /\ sm_cmd s2 = bct_reg_publisher /\ sm_cmd s3 = bct_unreg_publisher /\
    dg_run [(0%Z, DSample s1); (0%Z, DSample s2); (0%Z, DSample s3)] (dg_new 10) = DOk g /\
    snd (dg_publishers 0 g) = [].
Proof.
  exists (topic_sample bct_reg_publisher (str "h") (str "t") (str "7") dt0),
         (topic_sample bct_reg_publisher (str "i") (str "t") (str "7") dt0),
         (topic_sample bct_unreg_publisher (str "i") (str "t") (str "7") dt0). eexists.
  split; [discriminate|]. split; [reflexivity|]. split; [|repeat split].
  repeat split; try discriminate. repeat constructor; discriminate.
Qed.
Lemma dropped_method_lemma :
  exists s1 s2 g i, sm_cmd s1 = bct_reg_service /\ sm_cmd s2 = bct_reg_service /\
    sm_entity s1 = sm_entity s2 /\ plain (sm_entity s1) /\ fst (of_service s1) = fst (of_service s2) /\
    ~ In (str "old") (map me_name (snd (of_service s2))) /\
    dg_run [(0%Z, DSample s1); (9%Z, DSample s2)] (dg_new 10) = DOk g /\
    In ((fst (of_service s2), str "old"), i) (snd (dg_services 9 g)).
Proof.
  exists (service_sample bct_reg_service (str "h") (str "s") (str "7") [Method (str "old") [] [] [] [] 0]),
         (service_sample bct_reg_service (str "h") (str "s") (str "7") [Method (str "new") [] [] [] [] 0]).
  eexists. eexists. split; [reflexivity|]. split; [reflexivity|]. split; [reflexivity|].
  split; [repeat split; try discriminate; repeat constructor; discriminate|]. split; [reflexivity|].
  split; [cbn; intros [E|[]]; discriminate|]. split; [vm_compute; reflexivity|]. vm_compute. right; left; reflexivity.
Qed.

Lemma response_lost_lemma :
  exists os g n i, upwards (map fst os ++ [0%Z]) /\ dg_run os (dg_new 10) = DOk g /\
    let l := snd (dg_services 0 g) in
    In (n, i) l /\ given (dt_desc (si_resp i)) = true /\
    fst (ut_method_info n l) = true /\ si_resp (snd (ut_method_info n l)) = dt0.
Proof.
  exists [(0%Z, DSample (service_sample bct_reg_service (str "h") (str "s") (str "1") [Method (str "m") [] [] (str "R") (str "d") 0]));
          (0%Z, DSample (service_sample bct_reg_service (str "h") (str "s") (str "2") [Method (str "m") (str "A") [] [] [] 0]))].
  eexists. exists (str "s", str "m"). eexists. split; [cbn; lia|]. split; [vm_compute; reflexivity|]. cbv zeta.
  split; [vm_compute; left; reflexivity|]. repeat split; vm_compute; reflexivity.
Qed.
Lemma methods_disagree_lemma :
  exists os g n i, upwards (map fst os ++ [0%Z]) /\ dg_run os (dg_new 10) = DOk g /\
    let l := snd (dg_services 0 g) in
    aget n (ut_services l) = Some i /\ si_req (snd (ut_method_info n l)) <> si_req i.
Proof.
  exists [(0%Z, DSample (service_sample bct_reg_service (str "h") (str "s") (str "2") [Method (str "m") [] [] (str "R") (str "d") 0]));
          (0%Z, DSample (service_sample bct_reg_service (str "h") (str "s") (str "1") [Method (str "m") (str "A") [] [] [] 0]))].
  eexists. exists (str "s", str "m"). eexists. split; [cbn; lia|]. split; [vm_compute; reflexivity|]. cbv zeta.
  split; [vm_compute; reflexivity|]. vm_compute. discriminate.
Qed.

(** Every sample of this kind throws, whatever the state. *)
Lemma crash_sample (e : text) : (forall n, stoull e <> PVal n) ->
  let s := topic_sample bct_reg_publisher (str "elsewhere") (str "t") e dt0 in
  (forall a, ap_network a = true -> ap_group a <> str "elsewhere" -> fst (ap_apply a s) = true) /\
  (forall now g, dg_apply now s g = DThrow).
Proof.
  intros N s. split.
  - intros a An Ag. unfold ap_apply, ap_accept, ap_member. cbn -[str eqb]. rewrite (neq_eqb (str "elsewhere") (ap_group a)) by congruence.
    destruct (is_nil (ap_group a)); cbn; rewrite An; reflexivity.
  - intros now g. cbn. unfold with_id. destruct (stoull e) as [n| |]; [exfalso; exact (N n eq_refl)|reflexivity|reflexivity].
Qed.
Lemma crash_lemma e : In e [str ""; str "18446744073709551616"; str "topic"] ->
  exists bytes s, de_sample bytes = Ok s /\ sm_entity s = e /\
    (forall a, ap_network a = true -> ap_group a <> str "elsewhere" -> fst (ap_apply a s) = true) /\
    (forall now g, dg_apply now s g = DThrow).
Proof.
  intros H. exists (ser_sample (topic_sample bct_reg_publisher (str "elsewhere") (str "t") e dt0)),
         (topic_sample bct_reg_publisher (str "elsewhere") (str "t") e dt0).
  split; [|split; [reflexivity|apply crash_sample]].
  - destruct H as [<-|[<-|[<-|[]]]]; vm_compute; reflexivity.
  - destruct H as [<-|[<-|[<-|[]]]]; intros n; vm_compute; discriminate.
Qed.
