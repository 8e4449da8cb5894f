(** Lemmas about the message filters. *)
From Verif Require Import Base Sample DscModel DscBest StrModel StrSpec StrProofs FltModel FltSpec.
From Coq Require Import Sorted.

(** ** Sets of strings *)
Definition ordered (l : list text) : Prop := StronglySorted (fun a b => text_ltb a b = true) l.
Lemma set_all_iff xs l x : In x (set_all text_ltb xs l) <-> In x xs \/ In x l.
Proof.
  split; [apply set_all_in|]. intros [H|H].
  - destruct (set_all_covers text_ltb text_ltb_irr xs l x H) as (y & Hy & E1 & E2).
    rewrite (text_ltb_none x y E1 E2). exact Hy.
  - apply set_all_keeps. exact H.
Qed.
Lemma set_all_ordered xs l : ordered l -> ordered (set_all text_ltb xs l).
Proof. apply set_all_sorted. exact text_ltb_tr. Qed.
Lemma flt_has_spec x l : flt_has x l = true <-> In x l.
Proof.
  unfold flt_has. rewrite existsb_exists. split.
  - intros (y & H & E). apply eqb_true in E. subst. exact H.
  - intros H. exists x. split; [exact H|apply eqb_refl].
Qed.
Lemma without_in x y l : In y (flt_without x l) <-> In y l /\ y <> x.
Proof.
  unfold flt_without. rewrite filter_In. split; intros [H E]; (split; [exact H|]).
  - intros ->. rewrite eqb_refl in E. discriminate.
  - rewrite neq_eqb; [reflexivity|congruence].
Qed.
Lemma filter_ordered f l : ordered l -> ordered (filter f l).
Proof.
  intros S. induction S as [|z l S IH F]; cbn; [constructor|]. destruct (f z); [|exact IH].
  constructor; [exact IH|]. rewrite Forall_forall in *. intros y H. apply filter_In in H. apply F. tauto.
Qed.
Lemma erase_loop_ordered ids : forall l l', ordered l -> flt_erase_loop ids l = Some l' -> ordered l'.
Proof.
  induction ids as [|x ids IH]; cbn; intros l l' O E; [congruence|].
  destruct (flt_following x l) as [[y|]|]; [destruct (starts x y)| |discriminate].
  - congruence.
  - eapply IH; [|exact E]. apply filter_ordered. exact O.
  - eapply IH; [|exact E]. apply filter_ordered. exact O.
Qed.
Lemma run_snoc ops o : flt_run (ops ++ [o]) = flt_step (flt_run ops) o.
Proof. unfold flt_run. rewrite fold_left_app. reflexivity. Qed.
Lemma run_ordered ops l : flt_run ops = Some l -> ordered l.
Proof.
  revert l. induction ops as [|o ops IH] using rev_ind; intros l E.
  - cbn in E. injection E as <-. constructor.
  - rewrite run_snoc in E. destruct (flt_run ops) as [l0|]; [|discriminate].
    specialize (IH l0 eq_refl). destruct o as [s|s|]; cbn in E.
    + injection E as <-. apply set_all_ordered. exact IH.
    + exact (erase_loop_ordered _ _ _ IH E).
    + injection E as <-. constructor.
Qed.

(** ** Items and identifiers *)
Lemma items_word w s : ~ In 46%Z w -> flt_items (w ++ 46%Z :: s) = w :: flt_items s.
Proof.
  induction w as [|c w IH]; cbn; intros N; [reflexivity|]. rewrite (proj2 (Z.eqb_neq c 46)) by intuition.
  rewrite IH by tauto. reflexivity.
Qed.
Lemma items_last w : ~ In 46%Z w -> w <> [] -> flt_items w = [w].
Proof.
  induction w as [|c w IH]; cbn; intros N H; [congruence|]. rewrite (proj2 (Z.eqb_neq c 46)) by intuition.
  destruct w as [|d w]; [reflexivity|]. rewrite IH; [reflexivity|tauto|discriminate].
Qed.
Lemma index_chars i c : index i -> In c i -> c = 42%Z \/ (48 <= c <= 57)%Z.
Proof. intros [->|[_ F]] H; [cbn in H; intuition|]. rewrite Forall_forall in F. right. apply F. exact H. Qed.
Lemma show_step_nodot s : good_step s -> ~ In 46%Z (show_step s) /\ show_step s <> [].
Proof.
  destruct s as [n [i|]]; intros [(N & D & B & K) G]; cbn in *.
  - split.
    + rewrite in_app_iff. cbn. rewrite in_app_iff. cbn. intros [H|[H|[H|[H|H]]]]; try tauto; try discriminate.
      apply (index_chars i) in H; [lia|apply G; reflexivity].
    + destruct n; [congruence|discriminate].
  - auto.
Qed.
Lemma show_cons s p : p <> [] -> show (s :: p) = show_step s ++ [46%Z] ++ show p.
Proof. destruct p; [congruence|reflexivity]. Qed.
Lemma items_show p : good p -> flt_items (show p) = map show_step p.
Proof.
  induction p as [|s p IH]; intros [N F]; [congruence|]. inversion F as [|? ? G F']; subst.
  destruct (show_step_nodot s G) as [D E]. destruct p as [|s' p].
  - apply items_last; assumption.
  - rewrite show_cons by discriminate. cbn [app]. rewrite items_word by exact D. rewrite IH; [reflexivity|].
    split; [discriminate|exact F'].
Qed.
Lemma among_step s : good_step s -> among 91 (show_step s) = match snd s with Some _ => true | None => false end.
Proof.
  destruct s as [n [i|]]; intros [(N & D & B & K) G]; cbn.
  - apply among_spec. rewrite in_app_iff. right. left. reflexivity.
  - apply among_false. exact B.
Qed.
Lemma before_bracket n i : ~ In 91%Z n -> fst (run_of [91%Z] (n ++ [91%Z] ++ i)) = n.
Proof.
  intros B. rewrite run_of_all; [reflexivity| |].
  - apply Forall_forall. intros c H. cbn. intros [E|[]]. subst c. tauto.
  - cbn. left. reflexivity.
Qed.
Lemma leading_cons s p q : leading q (s :: p) <-> q = [s] \/ exists q', leading q' p /\ q = s :: q'.
Proof.
  split.
  - intros (N & r & E). destruct q as [|t q]; [congruence|]. cbn in E. injection E as <- E.
    destruct q as [|u q]; [auto|]. right. exists (u :: q). split; [|reflexivity]. split; [discriminate|eauto].
  - intros [->|(q' & (N & r & ->) & ->)]; (split; [discriminate|]); cbn; eauto.
Qed.
Definition pre (inc : text) : text := match inc with [] => [] | _ => inc ++ [46%Z] end.
Lemma ids_in p : forall inc x, Forall good_step p ->
  (In x (flt_ids inc (map show_step p)) <->
   (exists q, leading q p /\ x = pre inc ++ show q) \/ exists i, In (x, Some i) p).
Proof.
  induction p as [|s p IH]; intros inc x F.
  - cbn. split; [tauto|]. intros [(q & (N & r & E) & _)|(i & [])]. destruct q; [congruence|discriminate].
  - inversion F as [|? ? G F']; subst. cbn [map flt_ids]. rewrite (among_step s G).
    fold (pre inc). set (inc' := pre inc ++ show_step s).
    assert (P : pre inc' = inc' ++ [46%Z]).
    { unfold pre at 1. destruct inc' eqn:E; [|reflexivity]. exfalso. unfold inc' in E.
      apply app_eq_nil in E. destruct (show_step_nodot s G). tauto. }
    rewrite in_app_iff. cbn [In]. rewrite (IH inc' x F'). split.
    + intros [H|[<-|[(q & L & ->)|(i & H)]]].
      * right. destruct s as [n [i|]]; [|contradiction]. cbn [snd show_step fst] in H. cbn [snd fst show_step] in H.
        unfold show_step in H; cbn [snd fst] in H. rewrite before_bracket in H by (apply G).
        destruct H as [<-|[]]. exists i. left. reflexivity.
      * left. exists [s]. split; [apply leading_cons; auto|reflexivity].
      * left. exists (s :: q). split; [apply leading_cons; eauto|].
        rewrite P. unfold inc'. rewrite show_cons by (apply L). rewrite <- !app_assoc. reflexivity.
      * right. exists i. cbn. auto.
    + intros [(q & L & ->)|(i & [->|H])].
      * apply leading_cons in L as [->|(q' & L & ->)].
        -- right. left. reflexivity.
        -- right. right. left. exists q'. split; [exact L|]. rewrite P. unfold inc'.
           rewrite show_cons by (apply L). rewrite <- !app_assoc. reflexivity.
      * left. unfold show_step. cbn [snd fst]. rewrite before_bracket by (apply G). left. reflexivity.
      * right. right. right. eauto.
Qed.
Lemma set_in p x : good p -> (In x (flt_set (show p)) <-> put_in p x).
Proof.
  intros G. unfold flt_set. rewrite set_all_iff, items_show by exact G. rewrite ids_in by apply G.
  cbn [pre app In]. unfold put_in. tauto.
Qed.

(** ** Insertion *)
Lemma wanted_app ws w : forall acc, wanted (ws ++ [w]) acc = match w with Want p => wanted ws acc ++ [p] | Nothing => [] end.
Proof. induction ws as [|[p|] ws IH]; intros acc; cbn; [destruct w; reflexivity|apply IH|apply IH]. Qed.
Lemma inserted_lemma ws : Forall good_wish ws ->
  exists l, flt_run (map call_of ws) = Some l /\ forall x, In x l <-> exists p, In p (wanted ws []) /\ put_in p x.
Proof.
  induction ws as [|w ws IH] using rev_ind; intros F.
  - exists []. split; [reflexivity|]. cbn. intros x. split; [tauto|]. intros (p & [] & _).
  - apply Forall_app in F as [F Fw]. destruct (IH F) as (l & E & H). rewrite map_app. cbn [map]. rewrite run_snoc, E.
    inversion Fw as [|? ? Gw _]; subst. destruct w as [p|]; cbn [call_of flt_step]; eexists; (split; [reflexivity|]); intros x.
    + rewrite wanted_app. unfold flt_insert. rewrite set_all_iff, (set_in p x Gw), H. split.
      * intros [P|(p' & I & P)]; eexists; (split; [rewrite in_app_iff|exact P]); cbn; auto.
      * intros (p' & I & P). rewrite in_app_iff in I. destruct I as [I|[<-|[]]]; eauto.
    + rewrite wanted_app. cbn. split; [tauto|]. intros (p & [] & _).
Qed.

(** A flat path: what is put in is what the comment says. *)
Lemma flat_app q s r : flat (q ++ s :: r) -> q <> [] -> snd s = None.
Proof.
  destruct q as [|t q]; [congruence|]. unfold flat. cbn. intros F _. rewrite Forall_forall in F. apply F.
  apply in_app_iff. right. left. reflexivity.
Qed.
Lemma flat_same p x : flat p -> (put_in p x <-> documented p x).
Proof.
  intros F. split.
  - intros [(q & L & ->)|(i & I)]; [exists q; auto|]. destruct p as [|s p]; [contradiction|]. destruct I as [->|I].
    + exists [(x, Some i)]. split; [apply leading_cons; auto|]. right. exists [], x, i. split; reflexivity.
    + exfalso. unfold flat in F. cbn in F. rewrite Forall_forall in F. specialize (F _ I). discriminate.
  - intros (q & L & [->|(q' & n & i & -> & ->)]); [left; eauto|].
    destruct L as (N & r & E). destruct q' as [|t q'].
    + right. exists i. rewrite E. left. reflexivity.
    + exfalso. rewrite E, <- app_assoc in F. cbn [app] in F.
      specialize (flat_app (t :: q') (n, Some i) r F). intros H. cbn in H. assert (Some i = None) by (apply H; discriminate). discriminate.
Qed.

(** ** Erasing *)
Lemma ltb_prefix a z : z <> [] -> text_ltb a (a ++ z) = true.
Proof.
  intros N. induction a as [|c a IH]; cbn; [destruct z; [congruence|reflexivity]|].
  rewrite Z.eqb_refl, IH, orb_true_r. reflexivity.
Qed.
(** What lies between a text and an extension of it extends it. *)
Lemma between a : forall y z, text_ltb a y = true -> text_ltb y (a ++ z) = true -> starts a y = true.
Proof.
  induction a as [|c a IH]; intros [|d y] z; cbn; auto; try discriminate.
  rewrite !orb_true_iff, !andb_true_iff, !Z.ltb_lt, !Z.eqb_eq. intros [L1|[E1 L1]] [L2|[E2 L2]]; try lia.
  split; [assumption|]. eapply IH; eauto.
Qed.
Lemma starts_extends x y : y <> x -> (starts x y = true <-> extends y x).
Proof.
  intros N. rewrite starts_spec. split.
  - intros (b & ->). exists b. split; [|reflexivity]. intros ->. rewrite app_nil_r in N. congruence.
  - intros (z & _ & ->). eauto.
Qed.
Lemma following_none x l : flt_following x l = None <-> ~ In x l.
Proof.
  induction l as [|y l IH]; cbn; [tauto|]. destruct (eqb x y) eqn:E.
  - apply eqb_true in E. subst. split; [discriminate|tauto].
  - apply eqb_false in E. rewrite IH. intuition congruence.
Qed.
Lemma following_spec x l : ordered l -> In x l ->
  exists f, flt_following x l = Some f /\
    ((exists y, f = Some y /\ starts x y = true) <-> exists y, In y l /\ extends y x) /\
    (forall y, f = Some y -> y <> x).
Proof.
  intros O. induction O as [|z l O IH F]; cbn; [tauto|]. rewrite Forall_forall in F. intros I.
  destruct (eqb x z) eqn:E.
  - apply eqb_true in E. subst z. exists (hd_error l). split; [reflexivity|].
    assert (NX : ~ In x l) by (intros H; specialize (F x H); rewrite text_ltb_irr in F; discriminate).
    split; [split|].
    + intros (y & Hy & S). exists y. destruct l as [|y' l]; [discriminate|]. cbn in Hy. injection Hy as ->.
      split; [right; left; reflexivity|]. apply starts_extends; [|exact S]. intros ->. apply NX. left. reflexivity.
    + intros (y & [<-|H] & X).
      * destruct X as (w & N & E). exfalso. apply N. apply (app_inv_head x). rewrite app_nil_r. congruence.
      * destruct l as [|y' l]; [contradiction|]. exists y'. split; [reflexivity|]. destruct X as (w & N & ->).
        destruct H as [->|H]; [apply starts_spec; eauto|].
        apply (between x y' w); [apply F; left; reflexivity|]. inversion O as [|? ? _ F']; subst.
        rewrite Forall_forall in F'. apply F'. exact H.
    + intros y Hy ->. destruct l; [discriminate|]. cbn in Hy. injection Hy as ->. apply NX. left. reflexivity.
  - apply eqb_false in E. destruct I as [I|I]; [congruence|]. destruct (IH I) as (f & Ef & H1 & H2).
    exists f. split; [exact Ef|]. split; [|exact H2]. rewrite H1. split.
    + intros (y & Hy & X). eauto.
    + intros (y & [<-|Hy] & X); [|eauto]. exfalso. destruct X as (w & N & ->).
      specialize (F x I). pose proof (ltb_prefix x w N) as L. pose proof (text_ltb_tr _ _ _ F L) as Q.
      rewrite text_ltb_irr in Q. discriminate.
Qed.
(** One round of the loop. *)
Lemma round x ids l : ordered l -> In x l ->
  ((exists y, In y l /\ extends y x) /\ flt_erase_loop (x :: ids) l = Some l) \/
  ((forall y, In y l -> ~ extends y x) /\ flt_erase_loop (x :: ids) l = flt_erase_loop ids (flt_without x l)).
Proof.
  intros O I. destruct (following_spec x l O I) as (f & E & H & N). cbn [flt_erase_loop]. rewrite E.
  destruct f as [y|].
  - destruct (starts x y) eqn:S.
    + left. split; [apply H; eauto|reflexivity].
    + right. split; [|reflexivity]. intros w Hw X. assert (Q : exists y0, Some y = Some y0 /\ starts x y0 = true) by (apply H; eauto).
      destruct Q as (y0 & Q & S'). congruence.
  - right. split; [|reflexivity]. intros w Hw X. assert (Q : exists y0, None = Some y0 /\ starts x y0 = true) by (apply H; eauto).
    destruct Q as (y0 & Q & _). discriminate.
Qed.
Lemma erase_sub ids : forall l l', flt_erase_loop ids l = Some l' -> forall x, In x l' -> In x l.
Proof.
  induction ids as [|i ids IH]; cbn; intros l l' E x H; [congruence|].
  destruct (flt_following i l) as [[y|]|]; [destruct (starts i y)| |discriminate].
  - congruence.
  - specialize (IH _ _ E x H). apply without_in in IH. tauto.
  - specialize (IH _ _ E x H). apply without_in in IH. tauto.
Qed.
Lemma erase_orphan ids : forall l l', ordered l -> flt_erase_loop ids l = Some l' ->
  forall x, In x l -> ~ In x l' -> In x ids /\ forall y, In y l' -> ~ extends y x.
Proof.
  induction ids as [|i ids IH]; intros l l' O E x I NI.
  - cbn in E. injection E as <-. tauto.
  - assert (Ii : In i l).
    { destruct (in_dec eq_dec i l) as [H|H]; [exact H|]. apply following_none in H. cbn in E. rewrite H in E. discriminate. }
    destruct (round i ids l O Ii) as [[_ R]|[H R]]; rewrite R in E; clear R.
    + injection E as <-. tauto.
    + destruct (eq_dec x i) as [->|N].
      * split; [left; reflexivity|]. intros y Hy. apply H. apply (erase_sub _ _ _ E) in Hy. apply without_in in Hy. tauto.
      * destruct (IH (flt_without i l) l') with (x := x) as [P Q]; auto.
        -- apply filter_ordered. exact O.
        -- apply without_in. auto.
        -- split; [right; exact P|exact Q].
Qed.
Lemma erase_defined ids : forall l, ordered l -> NoDup ids -> (forall x, In x ids -> In x l) -> flt_erase_loop ids l <> None.
Proof.
  induction ids as [|i ids IH]; intros l O D S; [discriminate|]. inversion D as [|? ? N D']; subst.
  destruct (round i ids l O (S i (or_introl eq_refl))) as [[_ R]|[_ R]]; rewrite R; [discriminate|].
  apply IH; [apply filter_ordered; exact O|exact D'|]. intros x H. apply without_in. split; [apply S; right; exact H|congruence].
Qed.

(** The identifiers of a flat path, longest first: each begins with the next. *)
Definition nested (ids : list text) : Prop := StronglySorted (fun a b => extends a b) ids.
Lemma erase_nested ids : forall l l', ordered l -> nested ids -> flt_erase_loop ids l = Some l' ->
  forall x, In x l' <-> In x l /\ (In x ids -> exists y, In y l /\ ~ In y ids /\ extends y x).
Proof.
  induction ids as [|i ids IH]; intros l l' O C E x.
  - cbn in E. injection E as <-. cbn. tauto.
  - assert (Ii : In i l).
    { destruct (in_dec eq_dec i l) as [H|H]; [exact H|]. apply following_none in H. cbn in E. rewrite H in E. discriminate. }
    inversion C as [|? ? C' F]; subst. rewrite Forall_forall in F.
    assert (LT : forall a b, extends a b -> length b < length a).
    { intros a b (z & N & ->). rewrite app_length. destruct z; [congruence|cbn; lia]. }
    destruct (round i ids l O Ii) as [[(y & Hy & X) R]|[H R]]; rewrite R in E; clear R.
    + injection E as <-. split; [|tauto]. intros I. split; [exact I|].
      assert (Ny : ~ In y (i :: ids)).
      { intros [Q|Q].
        - subst y. specialize (LT _ _ X). lia.
        - specialize (F y Q). pose proof (LT _ _ X). pose proof (LT _ _ F). lia. }
      intros [<-|J]; exists y; (split; [exact Hy|split; [exact Ny|]]); [exact X|].
      destruct (F x J) as (z & N & ->). destruct X as (w & N' & ->). exists (z ++ w). rewrite app_assoc.
      split; [destruct z; [congruence|discriminate]|reflexivity].
    + specialize (IH (flt_without i l) l' (filter_ordered _ _ O) C' E x). rewrite IH, without_in. split.
      * intros [[I N] P]. split; [exact I|]. intros [Q|J]; [congruence|]. destruct (P J) as (y & Hy & Ny & X).
        apply without_in in Hy as [Hy Hn]. exists y. split; [exact Hy|]. split; [|exact X]. cbn. intuition.
      * intros [I P]. assert (N : x <> i).
        { intros ->. destruct (P (or_introl eq_refl)) as (y & Hy & _ & X). exact (H y Hy X). }
        split; [auto|]. intros J. destruct (P (or_intror J)) as (y & Hy & Ny & X). exists y. cbn in Ny.
        rewrite without_in. intuition.
Qed.
Lemma sorted_rev_nested (ids : list text) : ordered ids -> (forall a b, In a ids -> In b ids -> a = b \/ extends a b \/ extends b a) -> nested (rev ids).
Proof.
  intros O. induction O as [|z l O IH F]; intros T; cbn; [constructor|].
  rewrite Forall_forall in F.
  assert (Q : forall l1 w, nested l1 -> (forall a, In a l1 -> extends a w) -> nested (l1 ++ [w])).
  { intros l1 w S. induction S as [|a l1 S IHs Fa]; intros H; cbn; [repeat constructor|].
    constructor; [apply IHs; intros b Hb; apply H; right; exact Hb|]. rewrite Forall_forall in *.
    intros b Hb. apply in_app_iff in Hb as [Hb|[<-|[]]]; [apply Fa; exact Hb|apply H; left; reflexivity]. }
  apply Q.
  - apply IH. intros a b Ha Hb. apply T; right; assumption.
  - intros a Ha. apply in_rev in Ha. specialize (F a Ha). destruct (T a z (or_intror Ha) (or_introl eq_refl)) as [->|[X|X]].
    + rewrite text_ltb_irr in F. discriminate.
    + exact X.
    + destruct X as (w & N & ->). pose proof (ltb_prefix a w N) as L. pose proof (text_ltb_tr _ _ _ F L) as B.
      rewrite text_ltb_irr in B. discriminate.
Qed.
(** Any two pieces of a flat path: the one begins with the other. *)
Lemma show_app q r : q <> [] -> r <> [] -> show (q ++ r) = show q ++ [46%Z] ++ show r.
Proof.
  intros Q R. induction q as [|s q IH]; [congruence|]. destruct q as [|t q].
  - cbn [app]. rewrite show_cons by exact R. reflexivity.
  - cbn [app] in *. rewrite show_cons by discriminate. rewrite IH by discriminate.
    rewrite (show_cons s (t :: q)) by discriminate. rewrite <- !app_assoc. reflexivity.
Qed.
Lemma leading_prefix q p : leading q p -> exists z, show p = show q ++ z.
Proof.
  intros (N & r & ->). destruct r as [|s r]; [exists []; rewrite !app_nil_r; reflexivity|].
  exists ([46%Z] ++ show (s :: r)). rewrite show_app; [reflexivity|exact N|discriminate].
Qed.
Lemma documented_prefix p x : documented p x -> exists z, show p = x ++ z.
Proof.
  intros (q & L & [->|(q' & n & i & -> & ->)]); destruct (leading_prefix _ _ L) as (z & E); [eauto|].
  assert (H : exists w, show (q' ++ [(n, Some i)]) = show (q' ++ [(n, None)]) ++ w).
  { destruct q' as [|s q'].
    - cbn. exists ([91%Z] ++ i ++ [93%Z]). reflexivity.
    - rewrite !(show_app (s :: q')) by discriminate. exists ([91%Z] ++ i ++ [93%Z]).
      change (show [(n, Some i)]) with (n ++ [91%Z] ++ i ++ [93%Z]). change (show [(n, None)]) with n.
      rewrite <- !app_assoc. reflexivity. }
  destruct H as (w & H). rewrite H, <- app_assoc in E. eauto.
Qed.
Lemma prefixes_nested (a b u v : text) : a ++ u = b ++ v -> a = b \/ extends a b \/ extends b a.
Proof.
  revert b. induction a as [|c a IH]; intros [|d b] E.
  - auto.
  - right. right. exists (d :: b). split; [discriminate|reflexivity].
  - right. left. exists (c :: a). split; [discriminate|reflexivity].
  - cbn in E. injection E as -> E. destruct (IH b E) as [->|[(z & N & ->)|(z & N & ->)]]; auto.
    + right. left. exists z. split; [exact N|reflexivity].
    + right. right. exists z. split; [exact N|reflexivity].
Qed.
Lemma erase_flat ops l p l' : flt_run ops = Some l -> good p -> flat p -> flt_erase (show p) l = Some l' ->
  forall x, In x l' <-> In x l /\ (chain p x -> exists y, In y l /\ ~ chain p y /\ extends y x).
Proof.
  intros R G F E x. unfold flt_erase in E. pose proof (run_ordered _ _ R) as O.
  assert (S : forall y, In y (rev (flt_set (show p))) <-> chain p y).
  { intros y. rewrite <- in_rev, (set_in p y G). apply flat_same. exact F. }
  assert (C : nested (rev (flt_set (show p)))).
  { apply sorted_rev_nested; [apply set_all_ordered; constructor|].
    intros a b Ha Hb. apply in_rev in Ha. apply in_rev in Hb. apply S in Ha. apply S in Hb.
    apply documented_prefix in Ha as (u & Ea). apply documented_prefix in Hb as (v & Eb).
    apply (prefixes_nested a b u v). congruence. }
  rewrite (erase_nested _ _ _ O C E x). rewrite S. split; intros [I P]; (split; [exact I|]); intros D;
    destruct (P D) as (y & Hy & N & X); exists y; (split; [exact Hy|split; [|exact X]]); intros Q; apply N; apply S; exact Q.
Qed.
Lemma erase_some ops l s : flt_run ops = Some l -> (forall x, In x (flt_set s) -> In x l) -> exists l', flt_erase s l = Some l'.
Proof.
  intros R H. destruct (flt_erase s l) as [l'|] eqn:E; [eauto|]. exfalso.
  assert (Q : ordered (flt_set s)) by (apply set_all_ordered; constructor).
  refine (erase_defined (rev (flt_set s)) l (run_ordered _ _ R) _ _ E).
  - apply NoDup_rev. apply sorted_nodup. exact Q.
  - intros x I. apply H. apply in_rev. exact I.
Qed.
Lemma erase_missing l s x : In x (flt_set s) -> ~ In x l -> (forall y, In y (flt_set s) -> y = x) -> flt_erase s l = None.
Proof.
  intros I N U. unfold flt_erase. destruct (rev (flt_set s)) as [|y ids] eqn:E.
  - apply in_rev in I. rewrite E in I. contradiction.
  - assert (y = x) by (apply U; apply in_rev; rewrite E; left; reflexivity). subst y.
    cbn. apply following_none in N. rewrite N. reflexivity.
Qed.

(** ** The filter with stars *)
Lemma skip_none s c r : s = c :: r -> c <> 91%Z -> skip_delim [91%Z] s = s.
Proof. intros -> N. cbn. rewrite (proj2 (Z.eqb_neq c 91) N). reflexivity. Qed.
Lemma clean_all p : ~ In 91%Z p -> Forall (fun c => ~ In c [91%Z]) p.
Proof. intros H. apply Forall_forall. intros c I [E|[]]. subst c. tauto. Qed.
Lemma skip_clean p r : p <> [] -> ~ In 91%Z p -> skip_delim [91%Z] (p ++ r) = p ++ r.
Proof. intros N H. destruct p as [|c p]; [congruence|]. apply (skip_none _ c (p ++ r)); [reflexivity|]. cbn in H. intuition. Qed.
Lemma match_plain p : p <> [] -> ~ In 91%Z p -> flt_match p = Some (p, None, []).
Proof.
  intros N H. unfold flt_match. rewrite <- (app_nil_r p) at 1. rewrite (skip_clean p [] N H).
  rewrite (run_of_all [91%Z] p []); [|apply clean_all; exact H|exact Logic.I]. destruct p; [congruence|reflexivity].
Qed.
Lemma digits_all i r : Forall (fun c => (48 <= c <= 57)%Z) i -> flt_digits (i ++ 93%Z :: r) = (i, 93%Z :: r).
Proof.
  induction i as [|c i IH]; intros F; [reflexivity|]. inversion F as [|? ? R F']; subst. cbn. unfold flt_digit.
  rewrite (proj2 (Z.leb_le 48 c)), (proj2 (Z.leb_le c 57)) by lia. cbn. rewrite (IH F'). reflexivity.
Qed.
Lemma bracket_index i r : index i -> flt_bracket ([91%Z] ++ i ++ [93%Z] ++ r) = (Some i, r).
Proof.
  intros [->|[N F]]; [reflexivity|]. destruct i as [|c i]; [congruence|].
  pose proof (digits_all (c :: i) r F) as D. inversion F as [|? ? R F']; subst.
  assert (H : flt_bracket (91%Z :: (c :: i) ++ 93%Z :: r) =
              match flt_digits ((c :: i) ++ 93%Z :: r) with ((_ :: _) as d, 93%Z :: r0) => (Some d, r0) | _ => (None, 91%Z :: (c :: i) ++ 93%Z :: r) end).
  { cbn [app]. unfold flt_bracket.
    assert (K : c = 48%Z \/ c = 49%Z \/ c = 50%Z \/ c = 51%Z \/ c = 52%Z \/ c = 53%Z \/ c = 54%Z \/ c = 55%Z \/ c = 56%Z \/ c = 57%Z) by lia.
    repeat (destruct K as [->|K]; [reflexivity|]). subst c. reflexivity. }
  cbn [app] in *. rewrite H, D. reflexivity.
Qed.
Lemma match_index p i r : p <> [] -> ~ In 91%Z p -> index i ->
  flt_match (p ++ [91%Z] ++ i ++ [93%Z] ++ r) = Some (p, Some i, r).
Proof.
  intros N H X. unfold flt_match. rewrite (skip_clean p _ N H).
  rewrite (run_of_all [91%Z] p); [|apply clean_all; exact H|cbn; left; reflexivity].
  pose proof (bracket_index i r X) as E. destruct p as [|c p]; [congruence|].
  cbn [app] in *. rewrite E. reflexivity.
Qed.
Lemma match_empty : flt_match [] = None.
Proof. reflexivity. Qed.
Lemma complex_step f l e s : flt_complex_loop (S f) l e s =
      match flt_match s with
      | None => true
      | Some (p, None, _) => flt_has (e ++ p) l
      | Some (p, Some i, r) =>
          if (negb (eqb p [42%Z]) && flt_has (e ++ p ++ [91%Z] ++ i ++ [93%Z]) l)%bool then flt_complex_loop f l (e ++ e ++ p ++ [91%Z] ++ i ++ [93%Z]) r
          else if flt_has (e ++ p ++ str "[*]") l then flt_complex_loop f l (e ++ e ++ p ++ str "[*]") r
          else false
      end.
Proof. cbn [flt_complex_loop]. destruct (flt_match s) as [[[p [i|]] r]|]; reflexivity. Qed.
Lemma loop_tail f l e v : ~ In 91%Z v -> flt_complex_loop (S f) l e v = match v with [] => true | _ => flt_has (e ++ v) l end.
Proof.
  intros H. rewrite complex_step. destruct v as [|c v]; [rewrite match_empty; reflexivity|].
  rewrite match_plain by (auto; discriminate). reflexivity.
Qed.
Lemma complex_none l v : ~ In 91%Z v -> flt_complex v l = match v with [] => true | _ => flt_has v l end.
Proof. intros H. unfold flt_complex. rewrite (loop_tail _ l [] v H). reflexivity. Qed.
Lemma complex_one l u i v : u <> [] -> u <> [42%Z] -> ~ In 91%Z u -> ~ In 91%Z v -> index i ->
  let tail b := match v with [] => true | _ => flt_has (b ++ v) l end in
  flt_complex (u ++ [91%Z] ++ i ++ [93%Z] ++ v) l =
    if flt_has (u ++ [91%Z] ++ i ++ [93%Z]) l then tail (u ++ [91%Z] ++ i ++ [93%Z])
    else if flt_has (u ++ str "[*]") l then tail (u ++ str "[*]") else false.
Proof.
  intros N NS U V X tail. unfold flt_complex. rewrite complex_step, (match_index u i v N U X).
  rewrite (neq_eqb u [42%Z]) by exact NS. cbn [negb andb].
  assert (Q : exists f, length (u ++ [91%Z] ++ i ++ [93%Z] ++ v) = S f).
  { destruct u as [|c u]; [congruence|]. cbn. eauto. }
  destruct Q as (f & ->). cbn [app].
  destruct (flt_has (u ++ 91%Z :: i ++ [93%Z]) l).
  - exact (loop_tail f l (u ++ 91%Z :: i ++ [93%Z]) v V).
  - destruct (flt_has (u ++ str "[*]") l); [|reflexivity]. exact (loop_tail f l (u ++ str "[*]") v V).
Qed.

(** A name with one index, against what was inserted. *)
Lemma name_split (n n' a b : text) : ~ In 91%Z n -> ~ In 91%Z n' -> n ++ 91%Z :: a = n' ++ 91%Z :: b -> n = n' /\ a = b.
Proof.
  revert n'. induction n as [|c n IH]; intros [|d n'] H H' E; cbn in *.
  - injection E as E. auto.
  - injection E as <- _. tauto.
  - injection E as -> _. tauto.
  - injection E as -> E. destruct (IH n') as [-> ->]; auto.
Qed.
Lemma show_step_inj s t : good_step s -> good_step t -> show_step s = show_step t -> s = t.
Proof.
  destruct s as [n [i|]], t as [m [j|]]; intros [(N & D & B & K) G] [(N' & D' & B' & K') G'] E; cbn in *; unfold show_step in E; cbn in E.
  - apply name_split in E as [-> E]; [|assumption|assumption]. apply app_inv_tail in E. congruence.
  - subst m. exfalso. apply B'. apply in_app_iff. right. left. reflexivity.
  - subst n. exfalso. apply B. apply in_app_iff. right. left. reflexivity.
  - congruence.
Qed.
Lemma show_inj p q : good p -> good q -> show p = show q -> p = q.
Proof.
  intros G H E. apply (f_equal flt_items) in E. rewrite !items_show in E by assumption.
  destruct G as [_ G], H as [_ H]. revert q H E. induction G as [|s p Gs G IH]; intros [|t q] H E; try discriminate; [reflexivity|].
  cbn in E. injection E as E1 E2. inversion H as [|? ? Ht H']; subst. f_equal; [apply show_step_inj|apply IH]; assumption.
Qed.
Lemma leading_good q p : good p -> leading q p -> good q.
Proof. intros [_ F] (N & r & ->). split; [exact N|]. apply Forall_app in F. tauto. Qed.
Lemma in_show_bracket p s i : In s p -> snd s = Some i -> In 91%Z (show p).
Proof.
  induction p as [|t p IH]; intros I E; [contradiction|].
  assert (H : In 91%Z (show_step t) \/ (p <> [] /\ In 91%Z (show p))).
  { destruct I as [->|I]; [left|right; split; [destruct p; [contradiction|discriminate]|apply IH; assumption]].
    destruct s as [n o]; cbn in E; subst o. cbn. apply in_app_iff. right. left. reflexivity. }
  destruct H as [H|[N H]].
  - destruct p; [exact H|]. rewrite show_cons by discriminate. apply in_app_iff. auto.
  - rewrite show_cons by exact N. apply in_app_iff. right. right. exact H.
Qed.
Lemma put_in_index p n s i : good p -> good n -> In s n -> snd s = Some i -> put_in p (show n) -> leading n p.
Proof.
  intros G H I E [(q & L & Q)|(j & J)].
  - apply show_inj in Q; [subst q; exact L|exact H|exact (leading_good q p G L)].
  - exfalso. destruct G as [_ G]. rewrite Forall_forall in G. destruct (G _ J) as [(_ & _ & B & _) _]. apply B. cbn.
    eapply in_show_bracket; eauto.
Qed.
Lemma put_in_prefix p q r s i : good p -> good (q ++ r) -> In s q -> snd s = Some i -> put_in p (show (q ++ r)) -> put_in p (show q).
Proof.
  intros G H I E P. apply (put_in_index p (q ++ r) s i G H) in P; [|apply in_app_iff; auto|exact E].
  destruct P as (N & t & ->). left. exists q. split; [|reflexivity]. split; [destruct q; [contradiction|discriminate]|].
  rewrite <- app_assoc. eauto.
Qed.
Lemma show_free p : Forall good_step p -> Forall (fun s => snd s = None) p -> ~ In 91%Z (show p).
Proof.
  induction p as [|s p IH]; intros G F; [cbn; tauto|]. inversion G as [|? ? Gs G']; inversion F as [|? ? Fs F']; subst.
  destruct s as [n o]; cbn in Fs; subst o. destruct Gs as [(_ & _ & B & _) _]. cbn in B.
  destruct p as [|t p]; [exact B|]. rewrite show_cons by discriminate. cbn [show_step snd fst]. rewrite !in_app_iff. cbn.
  intros [H|[[H|[]]|H]]; [exact (B H)|discriminate|exact (IH G' F' H)].
Qed.
Lemma show_at q n i r : show (q ++ (n, Some i) :: r) =
  show (q ++ [(n, None)]) ++ [91%Z] ++ i ++ [93%Z] ++ match r with [] => [] | _ => [46%Z] ++ show r end.
Proof.
  assert (H : show ((n, Some i) :: r) = n ++ [91%Z] ++ i ++ [93%Z] ++ match r with [] => [] | _ => [46%Z] ++ show r end).
  { destruct r; [cbn; rewrite ?app_nil_r; reflexivity|]. rewrite show_cons by discriminate. unfold show_step. cbn [snd fst]. rewrite <- !app_assoc. reflexivity. }
  destruct q as [|s q]; [exact H|]. rewrite !(show_app (s :: q)) by discriminate. rewrite H.
  change (show [(n, None)]) with n. rewrite <- !app_assoc. reflexivity.
Qed.
Lemma stars_lemma ws l q n i r : Forall good_wish ws -> flt_run (map call_of ws) = Some l ->
  good (q ++ (n, Some i) :: r) -> Forall (fun s => snd s = None) q -> Forall (fun s => snd s = None) r ->
  flt_complex (show (q ++ (n, Some i) :: r)) l = true <->
    In (show (q ++ (n, Some i) :: r)) l \/
    (~ In (show (q ++ [(n, Some i)])) l /\ In (show (q ++ (n, Some [42%Z]) :: r)) l).
Proof.
  intros W R G Fq Fr. destruct (inserted_lemma ws W) as (l' & E & H). rewrite E in R. injection R as ->.
  assert (GW : forall p, In p (wanted ws []) -> good p).
  { assert (Q : forall ws acc, Forall good_wish ws -> Forall good acc -> Forall good (wanted ws acc)).
    { clear. induction ws as [|[p|] ws IH]; cbn; intros acc F A; [exact A| |]; inversion F; subst; apply IH; auto. apply Forall_app; auto. }
    specialize (Q ws [] W (Forall_nil _)). rewrite Forall_forall in Q. exact Q. }
  assert (CL : forall j, index j -> In (show (q ++ (n, Some j) :: r)) l -> In (show (q ++ [(n, Some j)])) l).
  { intros j J I. apply H in I as (p & Ip & P). apply H. exists p. split; [exact Ip|].
    apply (put_in_prefix p (q ++ [(n, Some j)]) r (n, Some j) j).
    - apply GW. exact Ip.
    - destruct G as [_ G]. rewrite <- app_assoc. split; [destruct q; discriminate|]. apply Forall_app in G as [Gq G].
      inversion G as [|? ? Gs Gr]; subst. apply Forall_app. split; [exact Gq|]. constructor; [|exact Gr].
      destruct Gs as [Gs _]. split; [exact Gs|]. cbn. intros k K. injection K as <-. exact J.
    - apply in_app_iff. right. left. reflexivity.
    - reflexivity.
    - rewrite <- app_assoc. exact P. }
  destruct G as [_ G]. apply Forall_app in G as [Gq G]. inversion G as [|? ? Gs Gr]; subst.
  assert (Ii : index i) by (apply Gs; reflexivity).
  set (u := show (q ++ [(n, None)])). set (v := match r with [] => [] | _ => [46%Z] ++ show r end).
  assert (Nu : ~ In 91%Z u).
  { apply show_free.
    - apply Forall_app. split; [exact Gq|]. constructor; [|constructor]. destruct Gs as [Gs _]. split; [exact Gs|discriminate].
    - apply Forall_app. split; [exact Fq|]. repeat constructor. }
  assert (Nv : ~ In 91%Z v).
  { unfold v. destruct r as [|s r]; [cbn; tauto|]. intros [X|X]; [discriminate|]. exact (show_free _ Gr Fr X). }
  assert (Eu : u <> [] /\ u <> [42%Z]).
  { destruct Gs as [(N1 & _ & _ & K) _]. cbn in N1, K. unfold u. destruct q as [|s q].
    - cbn. split; [exact N1|]. intros X. apply K. rewrite X. left. reflexivity.
    - rewrite show_app by discriminate. split.
      + destruct (show (s :: q)); discriminate.
      + destruct (show (s :: q)) as [|c t]; [discriminate|]. intros X. injection X as _ X. destruct t; discriminate. }
  rewrite (show_at q n i r). fold u v. rewrite (complex_one l u i v (proj1 Eu) (proj2 Eu) Nu Nv Ii).
  assert (A : forall j, show (q ++ [(n, Some j)]) = u ++ [91%Z] ++ j ++ [93%Z]).
  { intros j. rewrite (show_at q n j []). fold u. rewrite ?app_nil_r. reflexivity. }
  assert (B : forall j, show (q ++ (n, Some j) :: r) = (u ++ [91%Z] ++ j ++ [93%Z]) ++ v).
  { intros j. rewrite (show_at q n j r). fold u v. rewrite <- !app_assoc. reflexivity. }
  rewrite A, (B [42%Z]). change (u ++ str "[*]") with (u ++ [91%Z] ++ [42%Z] ++ [93%Z]).
  assert (T : forall j, index j -> In ((u ++ [91%Z] ++ j ++ [93%Z]) ++ v) l -> In (u ++ [91%Z] ++ j ++ [93%Z]) l).
  { intros j J. rewrite <- B, <- A. apply CL. exact J. }
  assert (Y : u ++ [91%Z] ++ i ++ [93%Z] ++ v = (u ++ [91%Z] ++ i ++ [93%Z]) ++ v) by (rewrite <- !app_assoc; reflexivity).
  rewrite Y. clear Y.
  assert (M : forall b, In b l -> ((match v with [] => true | _ => flt_has (b ++ v) l end) = true <-> In (b ++ v) l)).
  { intros b Ib. destruct v; [rewrite app_nil_r; tauto|apply flt_has_spec]. }
  destruct (flt_has (u ++ [91%Z] ++ i ++ [93%Z]) l) eqn:X1.
  - apply flt_has_spec in X1. rewrite (M _ X1). tauto.
  - assert (N1 : ~ In (u ++ [91%Z] ++ i ++ [93%Z]) l) by (intros K; apply flt_has_spec in K; congruence).
    destruct (flt_has (u ++ [91%Z] ++ [42%Z] ++ [93%Z]) l) eqn:X2.
    + apply flt_has_spec in X2. rewrite (M _ X2). split; [auto|]. intros [K|[_ K]]; [|exact K]. exfalso. exact (N1 (T i Ii K)).
    + assert (N2 : ~ In (u ++ [91%Z] ++ [42%Z] ++ [93%Z]) l) by (intros K; apply flt_has_spec in K; congruence).
      split; [discriminate|]. intros [K|[_ K]]; exfalso; [exact (N1 (T i Ii K))|exact (N2 (T [42%Z] (or_introl eq_refl) K))].
Qed.

(** ** The statements *)
Lemma inserted_has ws : Forall good_wish ws ->
  exists l, flt_run (map call_of ws) = Some l /\ forall x, flt_has x l = true <-> exists p, In p (wanted ws []) /\ put_in p x.
Proof. intros W. destruct (inserted_lemma ws W) as (l & E & H). exists l. split; [exact E|]. intros x. rewrite flt_has_spec. apply H. Qed.
Lemma documented_has ws : Forall good_wish ws -> Forall flat (wanted ws []) ->
  exists l, flt_run (map call_of ws) = Some l /\ forall x, flt_has x l = true <-> exists p, In p (wanted ws []) /\ documented p x.
Proof.
  intros W F. destruct (inserted_has ws W) as (l & E & H). exists l. split; [exact E|]. intros x. rewrite H.
  rewrite Forall_forall in F. split; intros (p & I & P); exists p; (split; [exact I|]); apply (flat_same p x (F p I)); exact P.
Qed.
Lemma erase_defined_path ops l p : flt_run ops = Some l -> good p -> (forall x, put_in p x -> In x l) ->
  exists l', flt_erase (show p) l = Some l'.
Proof. intros R G H. apply (erase_some ops l (show p) R). intros x I. apply H. apply set_in; assumption. Qed.
Lemma erase_pieces ops l p l' : flt_run ops = Some l -> good p -> flt_erase (show p) l = Some l' ->
  forall x, (In x l' -> In x l) /\ (In x l -> ~ In x l' -> put_in p x /\ forall y, In y l' -> ~ extends y x).
Proof.
  intros R G E x. split; [apply (erase_sub _ _ _ E)|]. intros I N.
  destruct (erase_orphan _ _ _ (run_ordered _ _ R) E x I N) as [P Q]. split; [|exact Q].
  apply in_rev in P. apply set_in in P; assumption.
Qed.
Lemma erase_missing_path p : length p = 1 -> good p -> flat p -> (forall s, In s p -> snd s = None) -> flt_run [FltErase (show p)] = None.
Proof.
  intros L G F N. destruct p as [|[n o] [|? ?]]; try discriminate. specialize (N (n, o) (or_introl eq_refl)). cbn in N. subst o.
  assert (S : forall y, In y (flt_set (show [(n, None)])) <-> y = n).
  { intros y. rewrite (set_in _ y G). split.
    - intros [(q & Lq & ->)|(i & [J|[]])]; [|discriminate]. apply leading_cons in Lq as [->|(q' & (Nq & r & E) & _)]; [reflexivity|].
      destruct q'; [congruence|discriminate].
    - intros ->. left. exists [(n, None)]. split; [apply leading_cons; auto|reflexivity]. }
  cbn [flt_run fold_left flt_step]. apply (erase_missing [] _ n); [apply S; reflexivity|cbn; tauto|apply S].
Qed.
Lemma good_dec_step s : (negb (eqb (fst s) []) && negb (among 46 (fst s)) && negb (among 91 (fst s)) && negb (among 42 (fst s)) &&
   match snd s with None => true | Some i => eqb i [42%Z] || (negb (eqb i []) && forallb flt_digit i) end)%bool = true -> good_step s.
Proof.
  rewrite !andb_true_iff, !negb_true_iff. intros [[[[N D] B] K] X]. split.
  - split; [apply eqb_false; exact N|]. repeat split; apply among_false; assumption.
  - intros i E. rewrite E in X. apply orb_true_iff in X as [X|X]; [left; apply eqb_true; exact X|right].
    apply andb_true_iff in X as [X1 X2]. split; [apply eqb_false; apply negb_true_iff; exact X1|].
    apply Forall_forall. intros c I. rewrite forallb_forall in X2. specialize (X2 c I). unfold flt_digit in X2.
    apply andb_true_iff in X2. rewrite !Z.leb_le in X2. exact X2.
Qed.
Ltac goods := split; [discriminate|]; repeat (apply Forall_cons; [apply good_dec_step; vm_compute; reflexivity|]); apply Forall_nil.
Lemma erase_missing_case : good aa /\ flat aa /\ flt_run [FltErase (show aa)] = None.
Proof. split; [goods|]. split; [constructor|]. vm_compute. reflexivity. Qed.
Lemma two_indices_bad : good a1_b2_c /\ exists l, flt_run [FltInsert (show a1_b2_c)] = Some l /\
  flt_has (show a1_b2_c) l = true /\ flt_complex (show a1_b2_c) l = false.
Proof. split; [goods|]. eexists. split; [reflexivity|]. split; vm_compute; reflexivity. Qed.
Lemma documented_bad : good a_b1 /\ documented a_b1 (str "a.b") /\ ~ documented a_b1 (str "b") /\
  exists l, flt_run [FltInsert (show a_b1)] = Some l /\
    flt_has (str "a.b") l = false /\ flt_has (str "b") l = true /\ flt_complex (str "a.b") l = false.
Proof.
  split; [goods|]. split.
  - exists a_b1. split; [split; [discriminate|exists []; reflexivity]|]. right. exists [(str "a", None)], (str "b"), (str "1"). split; reflexivity.
  - split.
    + intros D. apply documented_prefix in D as (z & E). vm_compute in E. discriminate.
    + eexists. split; [reflexivity|]. repeat split; vm_compute; reflexivity.
Qed.
Lemma complex_plain l p : good p -> Forall (fun s => snd s = None) p -> flt_complex (show p) l = flt_has (show p) l.
Proof.
  intros G F. rewrite complex_none by (apply show_free; [apply G|exact F]).
  destruct (show p) eqn:E; [|reflexivity]. exfalso. destruct G as [N G]. destruct p as [|s p]; [congruence|].
  inversion G as [|? ? Gs _]; subst. destruct (show_step_nodot s Gs) as [_ Q]. destruct p as [|t p].
  - exact (Q E).
  - rewrite show_cons in E by discriminate. apply app_eq_nil in E. tauto.
Qed.
