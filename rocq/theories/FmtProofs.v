From Verif Require Import Base Sample MsgModel MsgSpec MsgProofs FmtModel FmtSpec.
From Coq Require Import Lia.

(** ** Flatbuffers *)
Lemma fb_honest : honest fb_size fb_serialize (fun m => m).
Proof. intro m. split; [reflexivity|]. unfold fb_serialize. now rewrite Nat.ltb_irrefl. Qed.
Lemma fb_short : forall b m, (Z.of_nat (length b) < 2 ^ 31)%Z -> fb_deserialize m b = Some (b ++ m).
Proof.
  intros b m H. unfold fb_deserialize.
  assert (E : as_int (Z.of_nat (length b)) = Z.of_nat (length b)) by (unfold as_int; rewrite Z.mod_small; lia).
  rewrite E, Nat2Z.id, firstn_all. destruct (Z.ltb_spec (Z.of_nat (length b)) 0); [lia|reflexivity].
Qed.
Lemma fb_long : forall b m, (2 ^ 31 <= Z.of_nat (length b) < 2 ^ 32)%Z -> fb_deserialize m b = None.
Proof.
  intros b m H. unfold fb_deserialize.
  assert (E : as_int (Z.of_nat (length b)) = (Z.of_nat (length b) - 2 ^ 32)%Z).
  { unfold as_int. replace (Z.of_nat (length b) + 2 ^ 31)%Z with ((Z.of_nat (length b) - 2 ^ 31) + 1 * 2 ^ 32)%Z by lia.
    rewrite Z.mod_add by lia. rewrite Z.mod_small by lia. lia. }
  rewrite E. destruct (Z.ltb_spec (Z.of_nat (length b) - 2 ^ 32) 0); [reflexivity|lia].
Qed.
Lemma fb_all : forall bs m, Forall (fun b => (Z.of_nat (length b) < 2 ^ 31)%Z) bs -> fb_receive_all m bs = Some (concat (rev bs) ++ m).
Proof.
  induction bs as [|b bs IH]; intros m H; [reflexivity|]. inversion H as [|? ? H1 H2]; subst. cbn [fb_receive_all rev].
  rewrite fb_short by exact H1. rewrite IH by exact H2. now rewrite concat_app, <- !app_assoc; cbn; rewrite app_nil_r.
Qed.

Lemma fb_trip : forall write m buf, (Z.of_nat (length m) < 2 ^ 31)%Z ->
  snd (typed_send (list Z) fb_size fb_serialize true true true write m buf) = ([PWrite m], write m) /\ fb_deserialize [] m = Some m.
Proof.
  intros write m buf H. split.
  - rewrite (honest_send fb_size fb_serialize (fun m => m)) by (exact fb_honest || reflexivity). reflexivity.
  - rewrite fb_short by exact H. now rewrite app_nil_r.
Qed.
Lemma fb_front : forall bs b m, Forall (fun b => (Z.of_nat (length b) < 2 ^ 31)%Z) (bs ++ [b]) ->
  exists old, fb_receive_all m (bs ++ [b]) = Some (b ++ old) /\ length old = length (concat bs) + length m.
Proof.
  intros bs b m H. exists (concat (rev bs) ++ m). rewrite (fb_all _ _ H), rev_unit. cbn [concat]. rewrite <- app_assoc. split; [reflexivity|].
  rewrite app_length. f_equal. clear. induction bs as [|x bs IH]; [reflexivity|]. cbn. rewrite concat_app, !app_length, IH. cbn. rewrite app_nil_r. lia.
Qed.
Lemma fb_reuse : ~ (forall a b m, fb_deserialize [] a = Some m -> fb_deserialize m b = Some b).
Proof. intro H. specialize (H [1%Z] [2%Z] [1%Z] eq_refl). discriminate H. Qed.
Lemma fb_large : ~ (forall b, fb_deserialize [] b <> None).
Proof.
  intro H. apply (H (repeat 0%Z (Z.to_nat (2 ^ 31)))). apply fb_long. rewrite repeat_length. rewrite Z2Nat.id by lia. lia.
Qed.

(** ** Messagepack *)
Lemma mp_honest : forall M (pack : M -> list Z), honest (mp_size M pack) (mp_serialize M pack) pack.
Proof. intros M pack m. split; [reflexivity|]. unfold mp_serialize. now rewrite Nat.ltb_irrefl, firstn_all. Qed.
Lemma mp_bounds : forall M (pack : M -> list Z) m n b, mp_serialize M pack m n = Some b -> b = pack m /\ length b <= n.
Proof.
  intros M pack m n b H. unfold mp_serialize in H. destruct (Nat.ltb_spec n (length (pack m))); [discriminate|]. injection H as <-.
  rewrite firstn_all2 by lia. split; [reflexivity|lia].
Qed.

(** ** Cap'n Proto payloads *)
Lemma concat_words : forall words : list (list Z), Forall (fun w => length w = 8) words -> length (concat words) = cp_size words.
Proof. unfold cp_size. induction 1 as [|w ws H Hs IH]; [reflexivity|]. cbn [concat]. rewrite app_length, IH, H. cbn. lia. Qed.
Lemma cp_full : forall words len, Forall (fun w => length w = 8) words ->
  (cp_size words <= len -> cp_write_full words len = Some (concat words)) /\
  (len < cp_size words -> cp_write_full words len = None) /\ length (concat words) = cp_size words.
Proof.
  intros words len H. unfold cp_write_full. rewrite (concat_words _ H). split; [|split].
  - intro L. destruct (Nat.ltb_spec len (cp_size words)); [lia|reflexivity].
  - intro L. destruct (Nat.ltb_spec len (cp_size words)); [reflexivity|lia].
  - reflexivity.
Qed.

(** ** Readers *)
Lemma cp_snoc : forall parse bs b, cp_all parse (bs ++ [b]) = fst (cp_deserialize parse (cp_all parse bs) b).
Proof. intros. unfold cp_all. now rewrite fold_left_app. Qed.
Lemma whole_words : forall b : list Z, length b mod 8 = 0 -> firstn (length b / 8 * 8) b = b.
Proof. intros b H. apply firstn_all2. pose proof (Nat.div_mod (length b) 8). lia. Qed.
Lemma cp_newest : forall parse bs b v rest, length b mod 8 = 0 -> parse b = Some (v, rest) ->
  exists s r, cp_deserialize parse (cp_all parse bs) b = (s, Some (r, Nat.eqb rest 0)) /\ cp_read s r = v.
Proof.
  intros parse bs b v rest L P. unfold cp_deserialize. rewrite (whole_words _ L), P. eexists. eexists. split; [reflexivity|].
  unfold cp_read. cbn [cr_roots]. rewrite app_length. cbn [length]. rewrite Nat.add_1_r, Nat.eqb_refl, app_nth2 by lia. now rewrite Nat.sub_diag.
Qed.
Lemma cp_more : forall parse cs s, length (cr_roots s) <= length (cr_roots (fold_left (fun s b => fst (cp_deserialize parse s b)) cs s)).
Proof.
  intros parse cs. induction cs as [|c cs IH]; intro s; [reflexivity|]. cbn [fold_left]. eapply Nat.le_trans; [|apply IH].
  unfold cp_deserialize. destruct (parse _) as [[v n]|]; cbn [fst cr_roots]; [rewrite app_length; cbn; lia|lia].
Qed.
Lemma cp_older : forall parse bs b s r f b' v rest cs, cp_deserialize parse (cp_all parse bs) b = (s, Some (r, f)) ->
  length b' mod 8 = 0 -> parse b' = Some (v, rest) -> cp_read (cp_all parse (bs ++ b :: b' :: cs)) r = [].
Proof.
  intros parse bs b s r f b' v rest cs D L P. unfold cp_all. rewrite fold_left_app. cbn [fold_left]. change (fold_left _ bs cread_init) with (cp_all parse bs).
  rewrite D. cbn [fst].
  assert (Hr : S r = length (cr_roots s)).
  { unfold cp_deserialize in D. destruct (parse _) as [[v0 n0]|]; [|discriminate]. injection D as <- <- _. cbn [cr_roots]. rewrite app_length. cbn. lia. }
  assert (H1 : length (cr_roots (fst (cp_deserialize parse s b'))) = S (length (cr_roots s))).
  { unfold cp_deserialize. rewrite (whole_words _ L), P. cbn [fst cr_roots]. rewrite app_length. cbn. lia. }
  pose proof (cp_more parse cs (fst (cp_deserialize parse s b'))) as H2. unfold cp_read.
  destruct (Nat.eqb_spec (S r) (length (cr_roots (fold_left (fun s0 b0 => fst (cp_deserialize parse s0 b0)) cs (fst (cp_deserialize parse s b')))))) as [E|E]; [|reflexivity].
  exfalso. rewrite H1 in H2. rewrite <- E in H2. rewrite <- Hr in H2. lia.
Qed.
Lemma cp_cut : forall parse s b extra, length b mod 8 = 0 -> length extra < 8 -> cp_deserialize parse s (b ++ extra) = cp_deserialize parse s b.
Proof.
  intros parse s b extra L X. unfold cp_deserialize. rewrite (whole_words _ L), app_length.
  assert (E : (length b + length extra) / 8 * 8 = length b).
  { pose proof (Nat.div_mod (length b) 8). assert (B : length b = length b / 8 * 8) by lia. rewrite B at 1.
    rewrite Nat.div_add_l by lia. rewrite (Nat.div_small _ _ X). lia. }
  rewrite E, firstn_app, Nat.sub_diag, firstn_all. cbn. now rewrite app_nil_r.
Qed.
Lemma cp_kept_refuted_lemma : ~ (forall parse bs b s r f b', cp_deserialize parse (cp_all parse bs) b = (s, Some (r, f)) ->
  cp_read (cp_all parse (bs ++ [b; b'])) r = cp_read s r).
Proof.
  intro H. specialize (H word_parse [] (word_of 5) _ _ _ (word_of 6) eq_refl). vm_compute in H. discriminate H.
Qed.
Lemma cp_length_refuted_lemma : ~ (forall parse s b r, snd (cp_deserialize parse s b) = Some (r, true) -> length b mod 8 = 0).
Proof. intro H. specialize (H word_parse cread_init (word_of 5 ++ [1%Z]) 0 eq_refl). discriminate H. Qed.

(** ** Publishers that hold their message *)
Section Refine.
  Variable generated : text -> bool.
  Definition pub_rel (x : option (bool * has)) (y : option hpub) : Prop :=
    match x, y with
    | None, None => True
    | Some (d, HasNothing), Some p => hp_dyn p = d /\ hp_topic p = None /\ hp_msg p = None /\ (d = true -> hp_edit p = None)
    | Some (d, HasTopic t m), Some p => p = HPub d (Some t) m m
    | _, _ => False
    end.
  Definition holder (w : hworld) (k m : nat) : Prop := exists d t, aget k (hw_pubs w) = Some (d, HasTopic t (Some m)).
  Record rel (w : hworld) (s : hstate) : Prop := {
    r_next : hs_next s = length (hw_msgs w);
    r_pubs : forall k, pub_rel (aget k (hw_pubs w)) (aget k (hs_pubs s));
    r_keys : NoDup (keys (hw_pubs w));
    r_kind : forall k d t m, aget k (hw_pubs w) = Some (d, HasTopic t (Some m)) -> m < length (hw_msgs w) /\ hw_shared m w = d;
    r_live : forall m, m < length (hw_msgs w) -> (hw_shared m w = true \/ exists k, holder w k m) ->
             aget m (hs_heap s) = Some (HMsg (hw_shared m w) (hw_type m w) (hw_value m w));
    r_one : forall k k' m, hw_shared m w = false -> holder w k m -> holder w k' m -> k = k' }.

  Lemma rel_init : rel hw_init hs_init.
  Proof.
    constructor; cbn; try reflexivity; try discriminate; try lia.
    - constructor.
    - intros k k' m _ [d [t H]]. discriminate H.
  Qed.
  Lemma amem_rel : forall w s k, rel w s -> amem k (hs_pubs s) = amem k (hw_pubs w).
  Proof.
    intros w s k R. pose proof (r_pubs _ _ R k) as P. unfold amem. destruct (aget k (hw_pubs w)) as [[d [|t m]]|], (aget k (hs_pubs s)); cbn in P; try contradiction; reflexivity.
  Qed.

  Lemma rel_give : forall w s k d h p, rel w s -> pub_rel (Some (d, h)) (Some p) ->
    (forall t m, h = HasTopic t (Some m) -> m < length (hw_msgs w) /\ hw_shared m w = d /\
       aget m (hs_heap s) = Some (HMsg (hw_shared m w) (hw_type m w) (hw_value m w)) /\
       (d = false -> forall k', holder w k' m -> k' = k)) ->
    rel (hw_give k d h w) (h_set k p s).
  Proof.
    intros w s k d h p R P Q. destruct R as [R1 R2 R3 R4 R5 R6]. constructor; cbn [hw_give h_set hw_pubs hw_msgs hs_pubs hs_heap hs_next].
    - exact R1.
    - intro k'. rewrite !aget_aset. destruct (eqb k' k); [exact P|apply R2].
    - now apply nodup_aset.
    - intros k' d' t m. rewrite aget_aset. destruct (eqb k' k).
      + intro E. injection E as <- ->. destruct (Q t m eq_refl) as [Q1 [Q2 _]]. now split.
      + apply R4.
    - intros m L [Hs|[k' [d' [t H]]]].
      + apply R5; [exact L|now left].
      + cbn [hw_give hw_pubs] in H. rewrite aget_aset in H. destruct (eqb k' k).
        * injection H as <- ->. destruct (Q t m eq_refl) as [_ [_ [Q3 _]]]. exact Q3.
        * apply R5; [exact L|]. right. now exists k', d', t.
    - intros k1 k2 m Hs [d1 [t1 H1]] [d2 [t2 H2]]. cbn [hw_give hw_pubs] in H1, H2. change (hw_shared m w = false) in Hs. rewrite aget_aset in H1, H2.
      destruct (eqb k1 k) eqn:E1, (eqb k2 k) eqn:E2; try apply eqb_true in E1; try apply eqb_true in E2.
      + congruence.
      + injection H1 as -> ->. destruct (Q t1 m eq_refl) as [_ [Q2 [_ Q4]]]. subst k1. symmetry. apply Q4; [congruence|now exists d2, t2].
      + injection H2 as -> ->. destruct (Q t2 m eq_refl) as [_ [Q2 [_ Q4]]]. subst k2. apply Q4; [congruence|now exists d1, t1].
      + apply (R6 k1 k2 m Hs); [now exists d1, t1|now exists d2, t2].
  Qed.
  Lemma shared_old : forall m sh ty v w, m < length (hw_msgs w) -> hw_shared m (hw_made sh ty v w) = hw_shared m w /\
    hw_type m (hw_made sh ty v w) = hw_type m w /\ hw_value m (hw_made sh ty v w) = hw_value m w.
  Proof.
    intros m sh ty v w L. unfold hw_shared, hw_type, hw_value, hw_made. cbn [hw_msgs hw_log find fst]. rewrite app_nth1 by exact L.
    destruct (Nat.eqb_spec (length (hw_msgs w)) m); [lia|]. repeat split.
  Qed.
  Lemma shared_new : forall sh ty v w, hw_shared (length (hw_msgs w)) (hw_made sh ty v w) = sh /\
    hw_type (length (hw_msgs w)) (hw_made sh ty v w) = ty /\ hw_value (length (hw_msgs w)) (hw_made sh ty v w) = v.
  Proof.
    intros. unfold hw_shared, hw_type, hw_value, hw_made. cbn [hw_msgs hw_log find fst]. rewrite app_nth2, Nat.sub_diag, Nat.eqb_refl by lia. repeat split.
  Qed.
  Lemma rel_new : forall w s sh ty v, rel w s -> rel (hw_made sh ty v w) (h_new sh ty v s) /\
    aget (length (hw_msgs w)) (hs_heap (h_new sh ty v s)) = Some (HMsg sh ty v) /\ (forall k, ~ holder (hw_made sh ty v w) k (length (hw_msgs w))).
  Proof.
    intros w s sh ty v R. destruct R as [R1 R2 R3 R4 R5 R6].
    assert (H : aget (length (hw_msgs w)) (hs_heap (h_new sh ty v s)) = Some (HMsg sh ty v)) by (cbn; rewrite R1; apply aget_aset_same).
    assert (N : forall k, ~ holder (hw_made sh ty v w) k (length (hw_msgs w))).
    { intros k [d [t G]]. cbn [hw_made hw_pubs] in G. apply R4 in G. lia. }
    split; [|split; [exact H|exact N]].
    assert (Lt : forall m, m < length (hw_msgs (hw_made sh ty v w)) -> m = length (hw_msgs w) \/ m < length (hw_msgs w)).
    { intros m. cbn [hw_made hw_msgs]. rewrite app_length. cbn. lia. }
    constructor.
    - cbn. rewrite app_length, R1. cbn. lia.
    - exact R2.
    - exact R3.
    - intros k d t m G. destruct (R4 k d t m G) as [A B]. destruct (shared_old m sh ty v w A) as [E _]. rewrite E. cbn [hw_made hw_msgs]. rewrite app_length. split; [lia|exact B].
    - intros m L G. destruct (Lt m L) as [->|L'].
      + rewrite H. destruct (shared_new sh ty v w) as [-> [-> ->]]. reflexivity.
      + destruct (shared_old m sh ty v w L') as [E1 [E2 E3]]. rewrite E1, E2, E3. rewrite E1 in G. cbn [h_new hs_heap]. rewrite aget_aset_other by lia. now apply R5.
    - intros k k' m Hs G G'. assert (L : m < length (hw_msgs w)) by (destruct G as [d [t G]]; now apply R4 in G).
      destruct (shared_old m sh ty v w L) as [E _]. rewrite E in Hs. exact (R6 k k' m Hs G G').
  Qed.
  Lemma rel_write : forall w s m v, rel w s -> m < length (hw_msgs w) -> (hw_shared m w = true \/ exists k, holder w k m) ->
    exists s', h_write m v s = Some s' /\ rel (hw_wrote m v w) s'.
  Proof.
    intros w s m v R L G. destruct R as [R1 R2 R3 R4 R5 R6]. unfold h_write. rewrite (R5 m L G). eexists. split; [reflexivity|].
    constructor; cbn [hs_next hs_pubs hs_heap hw_wrote hw_msgs hw_pubs hm_shared hm_type]; auto.
    intros m' L' G'. rewrite aget_aset. unfold hw_value, hw_wrote. cbn [hw_log find fst].
    destruct (eqb m' m) eqn:E.
    - apply eqb_true in E. subst m'. rewrite Nat.eqb_refl. reflexivity.
    - destruct (Nat.eqb_spec m m') as [->|N]; [rewrite eqb_refl in E; discriminate|]. now apply R5.
  Qed.
  Lemma rel_drop : forall w s k p d h, rel w s -> aget k (hw_pubs w) = Some (d, h) -> aget k (hs_pubs s) = Some p ->
    rel (HWorld (adel k (hw_pubs w)) (hw_msgs w) (hw_log w)) (HState (adel k (hs_pubs s)) (hs_heap (h_free p s)) (hs_next s)) /\
    forall m, hw_shared m w = true \/ (exists k', k' <> k /\ holder w k' m) -> aget m (hs_heap (h_free p s)) = aget m (hs_heap s).
  Proof.
    intros w s k p d h R G1 G2. destruct R as [R1 R2 R3 R4 R5 R6].
    assert (F : forall m, hw_shared m w = true \/ (exists k', k' <> k /\ holder w k' m) -> aget m (hs_heap (h_free p s)) = aget m (hs_heap s)).
    { intros m Hm. unfold h_free. pose proof (R2 k) as P. rewrite G1, G2 in P. destruct (hp_dyn p) eqn:D; [reflexivity|]. destruct (hp_msg p) as [m0|] eqn:M; [|reflexivity].
      cbn [hs_heap]. rewrite aget_adel. destruct (eqb m m0) eqn:E; [|reflexivity]. apply eqb_true in E. subst m0. exfalso.
      destruct h as [|t mm]; cbn in P; [destruct P as [_ [_ [P _]]]; congruence|]. subst p. cbn in D, M. subst d mm.
      destruct (R4 k false t m G1) as [L S]. destruct Hm as [Hm|[k' [N Hm]]]; [congruence|]. apply N. apply (R6 k' k m S Hm). now exists false, t. }
    split; [|exact F]. constructor; cbn [hw_pubs hw_msgs hs_pubs hs_heap hs_next].
    - exact R1.
    - intro k'. rewrite !aget_adel. destruct (eqb k' k); [exact Logic.I|apply R2].
    - now apply nodup_adel.
    - intros k' d' t m. rewrite aget_adel. destruct (eqb k' k); [discriminate|apply R4].
    - intros m L Hm. change (hw_shared m _) with (hw_shared m w) in *. change (hw_type m _) with (hw_type m w). change (hw_value m _) with (hw_value m w).
      assert (Hm' : hw_shared m w = true \/ (exists k', k' <> k /\ holder w k' m)).
      { destruct Hm as [Hm|[k' [d' [t Hm]]]]; [now left|]. right. cbn [hw_pubs] in Hm. rewrite aget_adel in Hm. destruct (eqb k' k) eqn:E; [discriminate|]. apply eqb_false in E.
        exists k'. split; [exact E|now exists d', t]. }
      rewrite (F m Hm'). apply R5; [exact L|]. destruct Hm' as [|[k' [_ Hk]]]; [now left|right; now exists k'].
    - intros k1 k2 m Hs [d1 [t1 H1]] [d2 [t2 H2]]. cbn [hw_pubs] in H1, H2. rewrite aget_adel in H1, H2. destruct (eqb k1 k); [discriminate|]. destruct (eqb k2 k); [discriminate|].
      apply (R6 k1 k2 m Hs); [now exists d1, t1|now exists d2, t2].
  Qed.

  Lemma rel_ext : forall w s w' s', rel w s -> (forall k, aget k (hw_pubs w') = aget k (hw_pubs w)) -> NoDup (keys (hw_pubs w')) ->
    hw_msgs w' = hw_msgs w -> hw_log w' = hw_log w -> (forall k, aget k (hs_pubs s') = aget k (hs_pubs s)) -> hs_heap s' = hs_heap s -> hs_next s' = hs_next s ->
    rel w' s'.
  Proof.
    intros w s w' s' R E1 E2 E3 E4 E5 E6 E7. destruct R as [R1 R2 R3 R4 R5 R6].
    assert (S1 : forall m, hw_shared m w' = hw_shared m w) by (intro m; unfold hw_shared; now rewrite E3).
    assert (S2 : forall m, hw_type m w' = hw_type m w) by (intro m; unfold hw_type; now rewrite E3).
    assert (S3 : forall m, hw_value m w' = hw_value m w) by (intro m; unfold hw_value; now rewrite E4).
    assert (S4 : forall k m, holder w' k m <-> holder w k m) by (intros k m; unfold holder; now rewrite E1).
    constructor.
    - congruence.
    - intro k. rewrite E1, E5. apply R2.
    - exact E2.
    - intros k d t m. rewrite E1, E3, S1. apply R4.
    - intros m. rewrite E3, E6, S1, S2, S3. intros L H. apply R5; [exact L|]. destruct H as [H|[k H]]; [now left|right; exists k; now apply S4].
    - intros k k' m. rewrite S1, !S4. apply R6.
  Qed.
  Lemma rel_empty : forall w s k q d h x, rel w s -> aget k (hw_pubs w) = Some (d, h) -> aget k (hs_pubs s) = Some q ->
    pub_rel (Some (d, HasNothing)) (Some x) -> rel (hw_give k d HasNothing w) (h_set k x (h_free q s)).
  Proof.
    intros w s k q d h x R G1 G2 X. destruct (rel_drop w s k q d h R G1 G2) as [D _].
    pose proof (rel_give _ _ k d HasNothing x D X) as Y. assert (Y' := Y ltac:(discriminate)). clear Y.
    refine (rel_ext _ _ _ _ Y' _ _ _ _ _ _ _); cbn [hw_give h_set hw_pubs hw_msgs hw_log hs_pubs hs_heap hs_next]; try reflexivity.
    - intro k'. rewrite !aget_aset, aget_adel. destruct (eqb k' k); reflexivity.
    - apply nodup_aset. exact (r_keys _ _ R).
    - intro k'. rewrite !aget_aset, aget_adel. replace (hs_pubs (h_free q s)) with (hs_pubs s) by (unfold h_free; now destruct (hp_dyn q), (hp_msg q)). destruct (eqb k' k); reflexivity.
    - unfold h_free; now destruct (hp_dyn q), (hp_msg q).
  Qed.

  Lemma free_pubs : forall p s, hs_pubs (h_free p s) = hs_pubs s /\ hs_next (h_free p s) = hs_next s.
  Proof. intros p s. unfold h_free. now destruct (hp_dyn p), (hp_msg p). Qed.
  Lemma rel_move : forall w s a b d h p, rel w s -> a <> b -> aget a (hw_pubs w) = Some (d, h) -> aget a (hs_pubs s) = Some p -> hw_holds b w = None ->
    rel (hw_give b d h (hw_give a d HasNothing w)) (h_set b p (h_set a (h_left p) s)).
  Proof.
    intros w s a b d h p R N G1 G2 B. pose proof (r_pubs _ _ R a) as P. rewrite G1, G2 in P.
    assert (D : hp_dyn p = d) by (destruct h; cbn in P; [easy|subst p; reflexivity]).
    assert (X : pub_rel (Some (d, HasNothing)) (Some (h_left p))).
    { cbn. rewrite D. repeat split. intros ->. reflexivity. }
    apply rel_give.
    - apply rel_give; [exact R|exact X|discriminate].
    - exact P.
    - intros t m E. subst h. cbn [hw_give h_set hw_msgs hs_heap].
      destruct (r_kind _ _ R _ _ _ _ G1) as [L K].
      assert (Ho : holder w a m) by now exists d, t.
      split; [exact L|]. split; [exact K|]. split; [apply (r_live _ _ R m L); right; now exists a|].
      intros -> k' [d' [t' Hk]]. cbn [hw_give hw_pubs] in Hk. rewrite aget_aset in Hk. destruct (eqb k' a) eqn:E; [discriminate|]. apply eqb_false in E. exfalso. apply E.
      apply (r_one _ _ R k' a m K); [now exists d', t'|exact Ho].
  Qed.

  Lemma hold_step : forall w s a, rel w s -> sane_act w a = true ->
    rel (fst (hw_step generated w a)) (fst (h_step generated s a)) /\ snd (h_step generated s a) = snd (hw_step generated w a).
  Proof.
    intros w s a R S. destruct a as [k t ty|ty v|k t [m|]|k t ty|k v|m v|k|a b|a b|k]; cbn [sane_act] in S; cbn [h_step hw_step].
    - rewrite (amem_rel _ _ k R). destruct (amem k (hw_pubs w)); [discriminate|]. cbn [fst snd]. split; [|reflexivity].
      destruct (rel_new w s false ty [] R) as [R' [H N]]. rewrite (r_next _ _ R). apply rel_give; [exact R'|reflexivity|].
      intros t0 m E. injection E as <- <-. destruct (shared_new false ty [] w) as [E1 [E2 E3]]. rewrite E1, E2, E3.
      cbn [hw_made hw_msgs]. rewrite app_length. split; [cbn; lia|]. split; [reflexivity|]. split; [exact H|]. intros _ k' Hk. now apply N in Hk.
    - cbn [fst snd]. split; [now apply rel_new|reflexivity].
    - rewrite (amem_rel _ _ k R). destruct (amem k (hw_pubs w)); [discriminate|]. cbn [negb andb] in S. apply andb_prop in S as [S1 S2]. apply Nat.ltb_lt in S1.
      pose proof (r_live _ _ R m S1 (or_introl S2)) as H. rewrite H, S2. cbn [fst snd]. split; [|reflexivity].
      apply rel_give; [exact R|reflexivity|]. intros t0 m0 E. injection E as <- <-. split; [exact S1|]. split; [exact S2|]. split; [exact H|discriminate].
    - rewrite (amem_rel _ _ k R). destruct (amem k (hw_pubs w)); [discriminate|]. cbn [fst snd]. split; [|reflexivity].
      apply rel_give; [exact R|reflexivity|discriminate].
    - rewrite (amem_rel _ _ k R). destruct (amem k (hw_pubs w)); [discriminate|]. destruct (generated ty); cbn [fst snd]; [|split; [exact R|reflexivity]]. split; [|reflexivity].
      destruct (rel_new w s true ty [] R) as [R' [H N]]. rewrite (r_next _ _ R). apply rel_give; [exact R'|reflexivity|].
      intros t0 m E. injection E as <- <-. destruct (shared_new true ty [] w) as [E1 [E2 E3]]. rewrite E1, E2, E3.
      cbn [hw_made hw_msgs]. rewrite app_length. split; [cbn; lia|]. split; [reflexivity|]. split; [exact H|]. discriminate.
    - unfold hw_holds in *. pose proof (r_pubs _ _ R k) as P. destruct (aget k (hw_pubs w)) as [[d [|t [m|]]]|] eqn:G; try discriminate.
      cbn in P. destruct (aget k (hs_pubs s)) as [p|]; [|contradiction]. subst p. cbn [hp_edit].
      destruct (r_kind _ _ R _ _ _ _ G) as [L K]. destruct (rel_write w s m v R L) as [s' [W R']]; [right; exists k; now exists d, t|]. rewrite W. cbn. now split.
    - apply andb_prop in S as [S1 S2]. pose proof S1 as L. apply Nat.ltb_lt in L. rewrite (r_next _ _ R), S1.
      destruct (rel_write w s m v R L) as [s' [W R']].
      { destruct (hw_shared m w); [now left|]. right. cbn [orb] in S2. unfold in_use in S2. apply existsb_exists in S2 as [[k [d h]] [I E]]. cbn in E.
        exists k. destruct h as [|t [m'|]]; try discriminate. apply Nat.eqb_eq in E. subst m'. exists d, t. apply in_aget; [exact (r_keys _ _ R)|exact I]. }
      rewrite W. cbn. now split.
    - unfold hw_holds in *. pose proof (r_pubs _ _ R k) as P. destruct (aget k (hw_pubs w)) as [[d [|t [m|]]]|] eqn:G; try discriminate.
      cbn in P. destruct (aget k (hs_pubs s)) as [p|]; [|contradiction]. subst p. cbn [hp_msg hp_topic].
      destruct (r_kind _ _ R _ _ _ _ G) as [L K]. rewrite (r_live _ _ R m L) by (right; exists k; now exists d, t). cbn. now split.
    - apply andb_prop in S as [S1 S2]. rewrite (amem_rel _ _ b R). destruct (amem b (hw_pubs w)) eqn:B; [discriminate|].
      unfold amem in S1, B. pose proof (r_pubs _ _ R a) as P. destruct (aget a (hw_pubs w)) as [[d h]|] eqn:G; [|discriminate].
      destruct (aget a (hs_pubs s)) as [p|] eqn:G2; [|destruct h; contradiction]. cbn [fst snd]. split; [|reflexivity].
      apply rel_move; [exact R| |exact G|exact G2|].
      + intros ->. rewrite G in B. discriminate.
      + unfold hw_holds. destruct (aget b (hw_pubs w)); [discriminate|reflexivity].
    - apply andb_prop in S as [S1 S2]. destruct (Nat.eqb_spec a b) as [|N]; [discriminate|].
      pose proof (r_pubs _ _ R a) as Pa. pose proof (r_pubs _ _ R b) as Pb.
      destruct (aget a (hw_pubs w)) as [[d h]|] eqn:Ga; [|discriminate]. destruct (aget b (hw_pubs w)) as [[d' h']|] eqn:Gb; [|discriminate].
      apply eqb_true in S2. subst d'.
      destruct (aget a (hs_pubs s)) as [q|] eqn:Ga'; [|destruct h; contradiction]. destruct (aget b (hs_pubs s)) as [p|] eqn:Gb'; [|destruct h'; contradiction].
      assert (D1 : hp_dyn q = d) by (destruct h; cbn in Pa; [easy|subst q; reflexivity]).
      assert (D2 : hp_dyn p = d) by (destruct h'; cbn in Pb; [easy|subst p; reflexivity]).
      rewrite D1, D2, eqb_refl. cbn [fst snd]. split; [|reflexivity].
      pose (x := HPub d None None None).
      assert (X : pub_rel (Some (d, HasNothing)) (Some x)) by (cbn; easy).
      pose proof (rel_empty w s a q d h x R Ga Ga' X) as R1.
      assert (Gb1 : aget b (hw_pubs (hw_give a d HasNothing w)) = Some (d, h')) by (cbn; rewrite aget_aset_other by congruence; exact Gb).
      assert (Gb2 : aget b (hs_pubs (h_set a x (h_free q s))) = Some p) by (cbn; rewrite aget_aset_other by congruence; destruct (free_pubs q s) as [-> _]; exact Gb').
      assert (Ha : hw_holds a (hw_give a d HasNothing w) = None) by (unfold hw_holds; cbn; now rewrite aget_aset_same).
      pose proof (rel_move _ _ b a d h' p R1 (not_eq_sym N) Gb1 Gb2 Ha) as R2.
      refine (rel_ext _ _ _ _ R2 _ _ _ _ _ _ _); cbn [hw_give h_set hw_pubs hw_msgs hw_log hs_pubs hs_heap hs_next]; try reflexivity.
      + intro k. rewrite !aget_aset. destruct (eqb k a); reflexivity.
      + apply nodup_aset, nodup_aset. exact (r_keys _ _ R).
      + intro k. rewrite !aget_aset. destruct (eqb k a); reflexivity.
    - pose proof (r_pubs _ _ R k) as P. unfold amem in S. destruct (aget k (hw_pubs w)) as [[d h]|] eqn:G; [|discriminate].
      destruct (aget k (hs_pubs s)) as [p|] eqn:G2; [|destruct h; contradiction]. cbn [fst snd]. split; [|reflexivity].
      destruct (rel_drop w s k p d h R G G2) as [D _]. destruct (free_pubs p s) as [-> ->]. exact D.
  Qed.
  Lemma hold_run : forall l w s, rel w s -> sane generated w l = true ->
    rel (fst (hw_run generated w l)) (fst (h_run generated s l)) /\ snd (h_run generated s l) = snd (hw_run generated w l).
  Proof.
    induction l as [|a l IH]; intros w s R S; [split; [exact R|reflexivity]|]. cbn [sane] in S. apply andb_prop in S as [S1 S2].
    destruct (hold_step w s a R S1) as [R1 E1]. cbn [h_run hw_run].
    destruct (h_step generated s a) as [s1 o]. destruct (hw_step generated w a) as [w1 o']. cbn [fst snd] in *. subst o'.
    destruct (IH w1 s1 R1 S2) as [R2 E2]. destruct (h_run generated s1 l) as [s2 os]. destruct (hw_run generated w1 l) as [w2 os']. cbn [fst snd] in *. subst os'. now split.
  Qed.
  Lemma hold_lemma : forall l, sane generated hw_init l = true -> snd (h_run generated hs_init l) = snd (hw_run generated hw_init l).
  Proof. intros l S. exact (proj2 (hold_run l _ _ rel_init S)). Qed.
  Lemma no_ub_step : forall w a, snd (hw_step generated w a) <> HUb /\ snd (hw_step generated w a) <> HNoProgram.
  Proof.
    intros w a. destruct a as [k t ty|ty v|k t m|k t ty|k v|m v|k|a b|a b|k]; cbn [hw_step]; try (split; discriminate).
    - destruct (generated ty); split; discriminate.
    - destruct (hw_holds k w); split; discriminate.
    - cbn [snd]. destruct (aget k (hw_pubs w)) as [[d [|t [m|]]]|]; split; discriminate.
    - destruct (aget a (hw_pubs w)) as [[d h]|]; split; discriminate.
    - destruct (aget b (hw_pubs w)) as [[d h]|]; split; discriminate.
  Qed.
  Lemma safe_lemma : forall l, sane generated hw_init l = true ->
    ~ In HUb (snd (h_run generated hs_init l)) /\ ~ In HNoProgram (snd (h_run generated hs_init l)).
  Proof.
    intros l S. rewrite (hold_lemma l S). clear S. generalize hw_init. induction l as [|a l IH]; intro w; [now split|]. cbn [hw_run].
    pose proof (no_ub_step w a) as [N1 N2]. destruct (hw_step generated w a) as [w1 o]. specialize (IH w1). destruct (hw_run generated w1 l) as [w2 os]. cbn in *.
    destruct IH as [I1 I2]. split; intros [H|H]; congruence || contradiction.
  Qed.
  Lemma h_run_cons : forall a l s s1 o, h_step generated s a = (s1, o) -> snd (h_run generated s (a :: l)) = o :: snd (h_run generated s1 l).
  Proof. intros a l s s1 o E. cbn [h_run]. rewrite E. now destruct (h_run generated s1 l). Qed.
  Lemma h_run_app : forall l1 l2 s, h_run generated s (l1 ++ l2) =
    (fst (h_run generated (fst (h_run generated s l1)) l2), snd (h_run generated s l1) ++ snd (h_run generated (fst (h_run generated s l1)) l2)).
  Proof.
    induction l1 as [|a l1 IH]; intros l2 s; [cbn; now destruct (h_run generated s l2)|]. cbn [app h_run]. destruct (h_step generated s a) as [s1 o].
    rewrite IH. destruct (h_run generated s1 l1) as [s2 os]. reflexivity.
  Qed.
  (** Behind a sane program: what is seen of the following actions. *)
  Definition then_seen (l l' : list hact) : list hout := skipn (length l) (snd (h_run generated hs_init (l ++ l'))).
  Lemma h_run_length : forall l s, length (snd (h_run generated s l)) = length l.
  Proof.
    induction l as [|a l IH]; intro s; [reflexivity|]. cbn. destruct (h_step generated s a) as [s1 o]. specialize (IH s1). destruct (h_run generated s1 l) as [s2 os]. cbn in *. congruence.
  Qed.
  Lemma then_lemma : forall l l', then_seen l l' = snd (h_run generated (fst (h_run generated hs_init l)) l').
  Proof.
    intros l l'. unfold then_seen. rewrite h_run_app. cbn [snd]. rewrite <- (h_run_length l hs_init) at 1.
    rewrite skipn_app, skipn_all, Nat.sub_diag. now rewrite skipn_O.
  Qed.
  Lemma after_sane : forall l, sane generated hw_init l = true -> rel (fst (hw_run generated hw_init l)) (fst (h_run generated hs_init l)).
  Proof. intros l S. exact (proj1 (hold_run l _ _ rel_init S)). Qed.
  Lemma empty_send : forall l k, sane generated hw_init l = true -> amem k (hw_pubs (fst (hw_run generated hw_init l))) = true ->
    hw_holds k (fst (hw_run generated hw_init l)) = None -> skipn (length l) (snd (h_run generated hs_init (l ++ [HSend k]))) = [HUb].
  Proof.
    intros l k S M H. pose proof (after_sane l S) as R. change (then_seen l [HSend k] = [HUb]). rewrite then_lemma.
    revert M H R. generalize (fst (hw_run generated hw_init l)) (fst (h_run generated hs_init l)). intros w s M H R.
    pose proof (r_pubs _ _ R k) as P. unfold amem, hw_holds in *. cbn [h_run h_step].
    destruct (aget k (hw_pubs w)) as [[d [|t [m|]]]|] eqn:G; try discriminate; destruct (aget k (hs_pubs s)) as [p|]; try contradiction; cbn in P.
    - destruct P as [_ [_ [P _]]]. now rewrite P.
    - subst p. reflexivity.
  Qed.
  Lemma alias_lemma : forall l a b t m v, sane generated hw_init l = true -> aget a (hw_pubs (fst (hw_run generated hw_init l))) = Some (false, HasTopic t (Some m)) ->
    amem b (hw_pubs (fst (hw_run generated hw_init l))) = false ->
    skipn (length l) (snd (h_run generated hs_init (l ++ [HMove a b; HEdit a v; HSend b; HDelete b; HEdit a v]))) = [HDone; HDone; HSent t v; HDone; HUb].
  Proof.
    intros l a b t m v S G B. pose proof (after_sane l S) as R. change (then_seen l [HMove a b; HEdit a v; HSend b; HDelete b; HEdit a v] = [HDone; HDone; HSent t v; HDone; HUb]). rewrite then_lemma.
    revert G B R. generalize (fst (hw_run generated hw_init l)) (fst (h_run generated hs_init l)). intros w s G B R.
    pose proof (r_pubs _ _ R a) as P. rewrite G in P. cbn in P. destruct (aget a (hs_pubs s)) as [p|] eqn:Ga; [|contradiction]. subst p.
    assert (N : a <> b) by (intros ->; unfold amem in B; rewrite G in B; discriminate).
    destruct (r_kind _ _ R _ _ _ _ G) as [L K]. pose proof (r_live _ _ R m L (or_intror (ex_intro _ a (ex_intro _ false (ex_intro _ t G))))) as H.
    pose proof (amem_rel _ _ b R) as B'. rewrite B in B'. destruct s as [ps hp nx]. cbn [hs_pubs hs_heap hs_next] in *.
    erewrite h_run_cons; [|cbn [h_step hs_pubs]; rewrite B', Ga; reflexivity].
    unfold h_set, h_left. cbn [hs_pubs hs_heap hs_next hp_dyn hp_edit hp_topic hp_msg].
    erewrite h_run_cons; [|cbn [h_step hs_pubs]; rewrite aget_aset_other by congruence; rewrite aget_aset_same; cbn [hp_edit]; unfold h_write; cbn [hs_heap]; rewrite H; reflexivity].
    cbn [hs_pubs hs_heap hs_next hm_shared hm_type].
    erewrite h_run_cons; [|cbn [h_step hs_pubs]; rewrite aget_aset_same; cbn [hp_msg hp_topic hs_heap]; rewrite aget_aset_same; reflexivity].
    cbn [hm_value].
    erewrite h_run_cons; [|cbn [h_step hs_pubs]; rewrite aget_aset_same; unfold h_free; cbn [hp_dyn hp_msg hs_pubs hs_heap hs_next]; reflexivity].
    erewrite h_run_cons; [reflexivity|]. cbn [h_step hs_pubs]. rewrite aget_adel.
    replace (eqb a b) with false by (symmetry; now apply neq_eqb). rewrite aget_aset_other by congruence. rewrite aget_aset_same. cbn [hp_edit]. unfold h_write. cbn [hs_heap].
    rewrite aget_adel, eqb_refl. reflexivity.
  Qed.
End Refine.

Lemma moved_refuted_lemma : ~ (forall generated l a b v, ~ In HNoProgram (snd (h_run generated hs_init (l ++ [HMove a b; HEdit a v; HSend b]))) ->
  last (snd (h_run generated hs_init (l ++ [HMove a b; HEdit a v; HSend b]))) HUb = last (snd (h_run generated hs_init (l ++ [HMove a b; HSend b]))) HUb).
Proof.
  intro H. specialize (H gen_p [HCapnp 1 tT tU; HEdit 1 [5%Z]] 1 2 [6%Z]). vm_compute in H. assert (E := H ltac:(intuition congruence)). discriminate E.
Qed.
Lemma null_refuted_lemma : ~ (forall generated k t, In (HAnnounce t []) (snd (h_run generated hs_init [HDyn k t None; HSend k])) ->
  ~ In HUb (snd (h_run generated hs_init [HDyn k t None; HSend k]))).
Proof. intro H. apply (H gen_p 1 tT); vm_compute; auto. Qed.
