(** Proofs about memory files. *)
From Verif Require Import Base MemModel MemSpec.

#[local] Arguments Z.max : simpl never.
#[local] Arguments Z.min : simpl never.

Lemma aset_aset {K V} `{EqDec K} (k : K) (v w : V) m : aset k v (aset k w m) = aset k v m.
Proof.
  induction m as [|[a b] m IH]; cbn; [rewrite eqb_refl; reflexivity|].
  destruct (eqb k a) eqn:E; cbn; rewrite ?E, ?eqb_refl; [reflexivity|rewrite IH; reflexivity].
Qed.

Section Inv.
  Variable lenof : nat -> Z.

  Definition fullsize (name : nat) : Z := Z.max (lenof name + ihdr_bytes) page.

  Definition hdr_ok (L : Z) (h : ihdr) : Prop :=
    ((h_ihs h = 0%Z /\ h_max h = 0%Z) \/ h_ihs h = ihdr_bytes) /\ (0 <= h_cur h <= h_max h)%Z /\ (h_max h <= L)%Z.
  Definition hdr_le (a b : ihdr) : Prop :=
    (h_max a <= h_max b)%Z /\ (h_ihs a = ihdr_bytes -> h_ihs b = ihdr_bytes).

  Definition file_ok (f : file) : Prop :=
    f_size f = fullsize (f_name f) /\ hdr_ok (lenof (f_name f)) (f_hdr f) /\ (0 < lenof (f_name f))%Z.

  Definition db_ok (cnt : nat -> nat -> Z) (s : sys) (p nm : nat) (i : info) : Prop :=
    exists m mp f, i_map i = Some m /\ aget m (s_maps s) = Some mp /\ i_fd i = Some (mp_file mp) /\
      aget (mp_file mp) (s_files s) = Some f /\ f_name f = nm /\ i_size i = mp_len mp /\ i_ref i = cnt p nm /\ (1 <= cnt p nm)%Z.

  Record Core (cnt : nat -> nat -> Z) (s : sys) : Prop := {
    c_names : forall nm fd, aget nm (s_names s) = Some fd -> exists f, aget fd (s_files s) = Some f /\ f_name f = nm;
    c_files : forall fd f, aget fd (s_files s) = Some f -> file_ok f;
    c_ffresh : forall fd f, aget fd (s_files s) = Some f -> fd < s_next s;
    c_mfresh : forall m mp, aget m (s_maps s) = Some mp -> m < s_next s;
    c_maps : forall m mp, aget m (s_maps s) = Some mp ->
      exists f, aget (mp_file mp) (s_files s) = Some f /\ (page <= mp_len mp <= f_size f)%Z;
    c_db : forall p nm i, aget (p, nm) (s_db s) = Some i -> db_ok cnt s p nm i;
    c_nodb : forall p nm, aget (p, nm) (s_db s) = None -> cnt p nm = 0%Z;
    c_inj : forall p nm i p' nm' i', aget (p, nm) (s_db s) = Some i -> aget (p', nm') (s_db s) = Some i' ->
      i_map i = i_map i' -> p = p' /\ nm = nm';
    c_noleak : forall m mp, aget m (s_maps s) = Some mp -> exists p nm i, aget (p, nm) (s_db s) = Some i /\ i_map i = Some m }.

  (** Files only change their content and grow their header. *)
  Definition files_le (s s' : sys) : Prop :=
    forall fd f, aget fd (s_files s) = Some f ->
      exists f', aget fd (s_files s') = Some f' /\ f_name f' = f_name f /\ f_size f' = f_size f /\ hdr_le (f_hdr f) (f_hdr f').

  Lemma hdr_le_refl h : hdr_le h h.
  Proof. split; [lia|auto]. Qed.
  Lemma files_le_refl s : files_le s s.
  Proof. intros fd f H. exists f. repeat split; auto using hdr_le_refl; lia. Qed.
  Lemma hdr_le_trans a b c : hdr_le a b -> hdr_le b c -> hdr_le a c.
  Proof. intros [H1 H2] [H3 H4]. split; [lia|auto]. Qed.
  Lemma files_le_trans s1 s2 s3 : files_le s1 s2 -> files_le s2 s3 -> files_le s1 s3.
  Proof.
    intros H1 H2 fd f H. destruct (H1 _ _ H) as [f1 [A [B [C D]]]]. destruct (H2 _ _ A) as [f2 [A2 [B2 [C2 D2]]]].
    exists f2. repeat split; try congruence; eapply hdr_le_trans; eauto.
  Qed.

  (** Replacing a file by one with the same name and size. *)
  Lemma core_file cnt s fd f f' :
    Core cnt s -> aget fd (s_files s) = Some f -> f_name f' = f_name f -> f_size f' = f_size f ->
    hdr_ok (lenof (f_name f)) (f_hdr f') -> hdr_le (f_hdr f) (f_hdr f') ->
    Core cnt (set_files s (aset fd f' (s_files s))) /\ files_le s (set_files s (aset fd f' (s_files s))).
  Proof.
    intros [H1 H2 H3 H4 H5 H6 H7 H8 H9] Hf Hn Hs Hh Hle.
    assert (Hg : forall x y, aget x (s_files s) = Some y ->
       exists y', aget x (aset fd f' (s_files s)) = Some y' /\ f_name y' = f_name y /\ f_size y' = f_size y /\ hdr_le (f_hdr y) (f_hdr y')).
    { intros x y Hx. rewrite aget_aset. destruct (eqb x fd) eqn:E.
      - apply eqb_true in E; subst x. replace y with f by congruence. exists f'. repeat split; auto; apply Hle.
      - exists y. repeat split; auto; try lia. }
    split; [|exact Hg].
    constructor; cbn [set_files s_files s_names s_maps s_locks s_db s_objs s_next].
    - intros nm x Hx. destruct (H1 _ _ Hx) as [y [A B]]. destruct (Hg _ _ A) as [y' [A' [B' _]]]. exists y'. split; congruence.
    - intros x y. rewrite aget_aset. destruct (eqb x fd) eqn:E; [|apply H2].
      intros [= <-]. destruct (H2 _ _ Hf) as [A [B C]]. unfold file_ok. rewrite Hn, Hs. auto.
    - intros x y. rewrite aget_aset. destruct (eqb x fd) eqn:E; [|apply H3].
      apply eqb_true in E; subst. intros _. eapply H3; eauto.
    - exact H4.
    - intros m mp Hm. destruct (H5 _ _ Hm) as [y [A B]]. destruct (Hg _ _ A) as [y' [A' [B' [C' _]]]]. exists y'. rewrite C'. auto.
    - intros p nm i Hi. destruct (H6 _ _ _ Hi) as [m [mp [y [A [B [C [D [E F]]]]]]]].
      destruct (Hg _ _ D) as [y' [A' [B' _]]]. exists m, mp, y'. repeat split; auto; try tauto; congruence.
    - exact H7.
    - exact H8.
    - exact H9.
  Qed.

  Lemma deref_eq s i mp f : deref s i = Some (mp, f) ->
    exists m, i_map i = Some m /\ aget m (s_maps s) = Some mp /\ aget (mp_file mp) (s_files s) = Some f.
  Proof.
    unfold deref. destruct (i_map i) as [m|]; [|discriminate]. destruct (aget m (s_maps s)) as [mp'|] eqn:E; [|discriminate].
    destruct (aget (mp_file mp') (s_files s)) as [f'|] eqn:E2; [|discriminate]. intros [= <- <-]. eauto.
  Qed.
  Lemma deref_some s i m mp f : i_map i = Some m -> aget m (s_maps s) = Some mp -> aget (mp_file mp) (s_files s) = Some f ->
    deref s i = Some (mp, f).
  Proof. intros H1 H2 H3. unfold deref. rewrite H1, H2, H3. reflexivity. Qed.

  Lemma within_hdr cnt s m mp f : Core cnt s -> aget m (s_maps s) = Some mp -> aget (mp_file mp) (s_files s) = Some f ->
    within mp f ihdr_bytes = true.
  Proof.
    intros HC Hm Hf. destruct (c_maps _ _ HC _ _ Hm) as [f' [A B]]. replace f' with f in B by congruence.
    unfold within, ihdr_bytes, page in *. lia.
  Qed.

  (** ** Single operations keep the core *)

  Definition same_rest (s s' : sys) : Prop :=
    s_names s' = s_names s /\ s_maps s' = s_maps s /\ s_locks s' = s_locks s /\ s_db s' = s_db s /\ s_objs s' = s_objs s /\ s_next s' = s_next s.

  Lemma hdr_write_lemma cnt s i m mp f h :
    Core cnt s -> i_map i = Some m -> aget m (s_maps s) = Some mp -> aget (mp_file mp) (s_files s) = Some f -> mp_write mp = true ->
    hdr_ok (lenof (f_name f)) h -> hdr_le (f_hdr f) h ->
    exists s', hdr_write s i h = Some s' /\ s' = set_files s (aset (mp_file mp) (File (f_name f) (f_size f) h (f_data f)) (s_files s)) /\
      Core cnt s' /\ files_le s s' /\ same_rest s s'.
  Proof.
    intros HC Hi Hm Hf Hw Hh Hle. unfold hdr_write. rewrite (deref_some _ _ _ _ _ Hi Hm Hf), (within_hdr _ _ _ _ _ HC Hm Hf), Hw.
    cbn [andb]. eexists. split; [reflexivity|]. split; [reflexivity|].
    destruct (core_file cnt s (mp_file mp) f (File (f_name f) (f_size f) h (f_data f)) HC Hf eq_refl eq_refl Hh Hle) as [A B].
    split; [exact A|]. split; [exact B|]. repeat split.
  Qed.

  Lemma hdr_read_lemma cnt s i m mp f :
    Core cnt s -> i_map i = Some m -> aget m (s_maps s) = Some mp -> aget (mp_file mp) (s_files s) = Some f ->
    hdr_read s i = Some (f_hdr f).
  Proof.
    intros HC Hi Hm Hf. unfold hdr_read. rewrite (deref_some _ _ _ _ _ Hi Hm Hf), (within_hdr _ _ _ _ _ HC Hm Hf). reflexivity.
  Qed.

  (** Database operations. *)
  Definition plus1 (cnt : nat -> nat -> Z) (p nm : nat) (d : Z) : nat -> nat -> Z :=
    fun a b => if Nat.eqb a p && Nat.eqb b nm then (cnt a b + d)%Z else cnt a b.
  Lemma plus1_same cnt p nm d : plus1 cnt p nm d p nm = (cnt p nm + d)%Z.
  Proof. unfold plus1. rewrite !Nat.eqb_refl. reflexivity. Qed.
  Lemma plus1_other cnt p nm d a b : (a, b) <> (p, nm) -> plus1 cnt p nm d a b = cnt a b.
  Proof.
    intros Hne. unfold plus1. destruct (Nat.eqb_spec a p), (Nat.eqb_spec b nm); cbn; congruence.
  Qed.

  (** Mapping data of an info. *)
  Definition same_map (a b : info) : Prop := i_map a = i_map b /\ i_fd a = i_fd b /\ i_size a = i_size b.

  Lemma eqb_pair_sym {A B} `{EqDec A} `{EqDec B} (x y : A * B) : eqb x y = false -> x <> y.
  Proof. apply eqb_false. Qed.

  Lemma core_set_entry cnt s p nm i i' d :
    Core cnt s -> aget (p, nm) (s_db s) = Some i -> same_map i i' -> i_ref i' = (i_ref i + d)%Z -> (1 <= i_ref i')%Z ->
    Core (plus1 cnt p nm d) (set_db s (aset (p, nm) i' (s_db s))).
  Proof.
    intros [H1 H2 H3 H4 H5 H6 H7 H8 H9] Hi [Ma [Mb Mc]] Hr Hpos.
    constructor; cbn [set_db s_files s_names s_maps s_locks s_db s_objs s_next]; auto.
    - intros a b j. rewrite aget_aset. destruct (eqb (a, b) (p, nm)) eqn:E.
      + apply eqb_true in E. injection E as -> ->. intros [= <-].
        destruct (H6 _ _ _ Hi) as [m [mp [f [A [B [C [D [E1 [E2 [E3 E4]]]]]]]]]].
        exists m, mp, f. rewrite plus1_same. repeat split; auto; try congruence; lia.
      + apply eqb_false in E. intros Hj. destruct (H6 _ _ _ Hj) as [m [mp [f Hx]]]. exists m, mp, f. rewrite plus1_other by exact E. exact Hx.
    - intros a b. rewrite aget_aset. destruct (eqb (a, b) (p, nm)) eqn:E; [discriminate|]. apply eqb_false in E.
      intros Hn. rewrite plus1_other by exact E. auto.
    - intros a b j a' b' j'. rewrite !aget_aset.
      destruct (eqb (a, b) (p, nm)) eqn:E, (eqb (a', b') (p, nm)) eqn:E'.
      + apply eqb_true in E, E'. intros; split; congruence.
      + apply eqb_true in E. injection E as -> ->. intros [= <-] Hj Hm. eapply H8; eauto. congruence.
      + apply eqb_true in E'. injection E' as -> ->. intros Hj [= <-] Hm. eapply H8; eauto. congruence.
      + apply H8.
    - intros m mp Hm. destruct (H9 _ _ Hm) as [a [b [j [A B]]]]. destruct (eqb (a, b) (p, nm)) eqn:E.
      + apply eqb_true in E. injection E as -> ->. exists p, nm, i'. rewrite aget_aset_same. split; [reflexivity|congruence].
      + exists a, b, j. rewrite aget_aset, E. auto.
  Qed.

  (** A new mapping for a new entry. *)
  Lemma core_new_entry cnt s p nm fd f len w r ex rm :
    Core cnt s -> aget (p, nm) (s_db s) = None -> aget fd (s_files s) = Some f -> f_name f = nm ->
    (page <= len <= f_size f)%Z -> r = 1%Z ->
    Core (plus1 cnt p nm 1)
      (set_db (bump (set_maps s (aset (s_next s) (Mapping fd len w) (s_maps s))))
              (aset (p, nm) (Info r rm (Some fd) (Some (s_next s)) len ex) (s_db s))).
  Proof.
    intros [H1 H2 H3 H4 H5 H6 H7 H8 H9] Hn Hf Hnm Hlen ->.
    assert (Hz : aget (s_next s) (s_maps s) = None).
    { destruct (aget (s_next s) (s_maps s)) eqn:E; [|reflexivity]. apply H4 in E. lia. }
    constructor; cbn [set_db set_maps bump s_files s_names s_maps s_locks s_db s_objs s_next]; auto.
    - intros x y Hx. apply H3 in Hx. lia.
    - intros m mp. rewrite aget_aset. destruct (eqb m (s_next s)) eqn:E.
      + apply eqb_true in E. lia.
      + intros Hm. apply H4 in Hm. lia.
    - intros m mp. rewrite aget_aset. destruct (eqb m (s_next s)) eqn:E.
      + intros [= <-]. cbn. exists f. auto.
      + apply H5.
    - intros a b j. rewrite aget_aset. destruct (eqb (a, b) (p, nm)) eqn:E.
      + apply eqb_true in E. injection E as -> ->. intros [= <-]. exists (s_next s), (Mapping fd len w), f.
        rewrite plus1_same. cbn. rewrite aget_aset_same, (H7 _ _ Hn). repeat split; auto; lia.
      + apply eqb_false in E. intros Hj. destruct (H6 _ _ _ Hj) as [m [mp [y [A [B Hx]]]]]. exists m, mp, y.
        cbn [set_db set_maps bump s_files s_names s_maps s_locks s_db s_objs s_next].
        rewrite plus1_other by exact E. rewrite aget_aset_other; [tauto|]. intros ->. congruence.
    - intros a b. rewrite aget_aset. destruct (eqb (a, b) (p, nm)) eqn:E; [discriminate|]. apply eqb_false in E.
      intros Hx. rewrite plus1_other by exact E. auto.
    - intros a b j a' b' j'. rewrite !aget_aset.
      destruct (eqb (a, b) (p, nm)) eqn:E, (eqb (a', b') (p, nm)) eqn:E'.
      + apply eqb_true in E, E'. intros; split; congruence.
      + intros [= <-] Hj Hm. cbn in Hm. destruct (H6 _ _ _ Hj) as [m [mp [y [A [B _]]]]]. rewrite A in Hm. injection Hm as <-. congruence.
      + intros Hj [= <-] Hm. cbn in Hm. destruct (H6 _ _ _ Hj) as [m [mp [y [A [B _]]]]]. rewrite A in Hm. injection Hm as ->. congruence.
      + apply H8.
    - intros m mp. rewrite aget_aset. destruct (eqb m (s_next s)) eqn:E.
      + apply eqb_true in E; subst m. intros _. exists p, nm. eexists. rewrite aget_aset_same. split; reflexivity.
      + intros Hm. destruct (H9 _ _ Hm) as [a [b [j [A B]]]]. exists a, b, j. rewrite aget_aset_other; [auto|].
        intros [= -> ->]. congruence.
  Qed.

  (** The last user of a file in a process goes away. *)
  Lemma core_drop_entry cnt s p nm i m :
    Core cnt s -> aget (p, nm) (s_db s) = Some i -> i_map i = Some m -> cnt p nm = 1%Z ->
    Core (plus1 cnt p nm (-1)) (set_db (set_maps s (adel m (s_maps s))) (adel (p, nm) (s_db s))).
  Proof.
    intros [H1 H2 H3 H4 H5 H6 H7 H8 H9] Hi Him Hc.
    constructor; cbn [set_db set_maps s_files s_names s_maps s_locks s_db s_objs s_next]; auto.
    - intros x y. rewrite aget_adel. destruct (eqb x m); [discriminate|]. apply H4.
    - intros x y. rewrite aget_adel. destruct (eqb x m); [discriminate|]. apply H5.
    - intros a b j. rewrite aget_adel. destruct (eqb (a, b) (p, nm)) eqn:E; [discriminate|]. apply eqb_false in E.
      intros Hj. destruct (H6 _ _ _ Hj) as [x [mp [f [A [B Hx]]]]]. exists x, mp, f.
      cbn [set_db set_maps s_files s_names s_maps s_locks s_db s_objs s_next].
      rewrite plus1_other by exact E. rewrite aget_adel, neq_eqb; [tauto|].
      intros ->. apply E. destruct (H8 _ _ _ _ _ _ Hj Hi) as [-> ->]; congruence.
    - intros a b. rewrite aget_adel. destruct (eqb (a, b) (p, nm)) eqn:E.
      + apply eqb_true in E. injection E as -> ->. intros _. rewrite plus1_same. lia.
      + apply eqb_false in E. intros Hx. rewrite plus1_other by exact E. auto.
    - intros a b j a' b' j'. rewrite !aget_adel.
      destruct (eqb (a, b) (p, nm)), (eqb (a', b') (p, nm)); try discriminate. apply H8.
    - intros x mp. rewrite aget_adel. destruct (eqb x m) eqn:E; [discriminate|]. apply eqb_false in E. intros Hx.
      destruct (H9 _ _ Hx) as [a [b [j [A B]]]]. exists a, b, j. rewrite aget_adel, neq_eqb; [auto|].
      intros [= -> ->]. congruence.
  Qed.

  (** A mapping is replaced by a longer, read only one. *)
  Lemma core_grow cnt s p nm i m mp f len i' :
    Core cnt s -> aget (p, nm) (s_db s) = Some i -> i_map i = Some m -> aget m (s_maps s) = Some mp ->
    aget (mp_file mp) (s_files s) = Some f -> (page <= len <= f_size f)%Z ->
    i' = Info (i_ref i) (i_remove i) (i_fd i) (Some (s_next s)) len (i_exists i) ->
    Core cnt (set_db (bump (set_maps s (aset (s_next s) (Mapping (mp_file mp) len false) (adel m (s_maps s)))))
                     (aset (p, nm) i' (s_db s))).
  Proof.
    intros [H1 H2 H3 H4 H5 H6 H7 H8 H9] Hi Him Hm Hf Hlen ->.
    constructor; cbn [set_db set_maps bump s_files s_names s_maps s_locks s_db s_objs s_next]; auto.
    - intros x y Hx. apply H3 in Hx. lia.
    - intros x y. rewrite aget_aset. destruct (eqb x (s_next s)) eqn:E.
      + apply eqb_true in E. lia.
      + rewrite aget_adel. destruct (eqb x m); [discriminate|]. intros Hx. apply H4 in Hx. lia.
    - intros x y. rewrite aget_aset. destruct (eqb x (s_next s)) eqn:E.
      + intros [= <-]. cbn. exists f. auto.
      + rewrite aget_adel. destruct (eqb x m); [discriminate|]. apply H5.
    - intros a b j. rewrite aget_aset. destruct (eqb (a, b) (p, nm)) eqn:E.
      + apply eqb_true in E. injection E as -> ->. intros [= <-].
        destruct (H6 _ _ _ Hi) as [m' [mp' [f' [A [B [C [D [E1 [E2 [E3 E4]]]]]]]]]].
        assert (m' = m) by congruence. subst m'. assert (mp' = mp) by congruence. subst mp'. assert (f' = f) by congruence. subst f'.
        exists (s_next s), (Mapping (mp_file mp) len false), f.
        cbn [i_map i_fd i_size i_ref mp_file mp_len set_db set_maps bump s_files s_names s_maps s_locks s_db s_objs s_next].
        rewrite aget_aset_same. repeat split; auto.
      + apply eqb_false in E. intros Hj. destruct (H6 _ _ _ Hj) as [x [y [z [A [B Hx]]]]]. exists x, y, z.
        cbn [set_db set_maps bump s_files s_names s_maps s_locks s_db s_objs s_next].
        rewrite aget_aset_other; [|intros ->; apply H4 in B; lia].
        rewrite aget_adel, neq_eqb; [tauto|].
        intros ->. apply E. destruct (H8 _ _ _ _ _ _ Hj Hi) as [-> ->]; congruence.
    - intros a b. rewrite aget_aset. destruct (eqb (a, b) (p, nm)); [discriminate|]. apply H7.
    - intros a b j a' b' j'. rewrite !aget_aset.
      destruct (eqb (a, b) (p, nm)) eqn:E, (eqb (a', b') (p, nm)) eqn:E'.
      + apply eqb_true in E, E'. intros; split; congruence.
      + intros [= <-] Hj Hx. cbn in Hx. destruct (H6 _ _ _ Hj) as [x [y [z [A [B _]]]]]. rewrite A in Hx. injection Hx as <-. apply H4 in B. lia.
      + intros Hj [= <-] Hx. cbn in Hx. destruct (H6 _ _ _ Hj) as [x [y [z [A [B _]]]]]. rewrite A in Hx. injection Hx as ->. apply H4 in B. lia.
      + apply H8.
    - intros x y. rewrite aget_aset. destruct (eqb x (s_next s)) eqn:E.
      + apply eqb_true in E; subst x. intros _. exists p, nm. eexists. rewrite aget_aset_same. split; reflexivity.
      + rewrite aget_adel. destruct (eqb x m) eqn:E2; [discriminate|]. apply eqb_false in E2. intros Hx.
        destruct (H9 _ _ Hx) as [a [b [j [A B]]]]. exists a, b, j. rewrite aget_aset_other; [auto|].
        intros [= -> ->]. congruence.
  Qed.

  (** A new file. *)
  Lemma core_new_file cnt s nm f :
    Core cnt s -> aget nm (s_names s) = None -> f_name f = nm -> file_ok f ->
    Core cnt (bump (set_names (set_files s (aset (s_next s) f (s_files s))) (aset nm (s_next s) (s_names s)))) /\
    files_le s (bump (set_names (set_files s (aset (s_next s) f (s_files s))) (aset nm (s_next s) (s_names s)))).
  Proof.
    intros [H1 H2 H3 H4 H5 H6 H7 H8 H9] Hn Hnm Hok.
    assert (Hg : forall x y, aget x (s_files s) = Some y -> aget x (aset (s_next s) f (s_files s)) = Some y).
    { intros x y Hx. rewrite aget_aset_other; [assumption|]. intros ->. apply H3 in Hx. lia. }
    split.
    2:{ intros x y Hx. exists y. cbn. rewrite (Hg _ _ Hx). repeat split; auto using hdr_le_refl; lia. }
    constructor; cbn [set_names set_files bump s_files s_names s_maps s_locks s_db s_objs s_next]; auto.
    - intros a x. rewrite aget_aset. destruct (eqb a nm) eqn:E.
      + apply eqb_true in E; subst a. intros [= <-]. exists f. rewrite aget_aset_same. auto.
      + intros Ha. destruct (H1 _ _ Ha) as [y [A B]]. exists y. auto.
    - intros x y. rewrite aget_aset. destruct (eqb x (s_next s)); [intros [= <-]; assumption|apply H2].
    - intros x y. rewrite aget_aset. destruct (eqb x (s_next s)) eqn:E.
      + apply eqb_true in E. lia.
      + intros Hx. apply H3 in Hx. lia.
    - intros x y Hx. apply H4 in Hx. lia.
    - intros x y Hx. destruct (H5 _ _ Hx) as [z [A B]]. exists z. auto.
    - intros a b j Hj. destruct (H6 _ _ _ Hj) as [x [y [z [A [B [C [D Hx]]]]]]]. exists x, y, z. repeat split; auto; tauto.
  Qed.

  Lemma core_ext cnt cnt' s : (forall a b, cnt a b = cnt' a b) -> Core cnt s -> Core cnt' s.
  Proof.
    intros He [H1 H2 H3 H4 H5 H6 H7 H8 H9]. constructor; auto.
    - intros p nm i Hi. destruct (H6 _ _ _ Hi) as [x [y [z Hx]]]. exists x, y, z. rewrite <- He. exact Hx.
    - intros p nm Hn. rewrite <- He. auto.
  Qed.
  (** Locks, objects and names do not matter. *)
  Lemma core_locks cnt s l : Core cnt s -> Core cnt (set_locks s l).
  Proof. intros [H1 H2 H3 H4 H5 H6 H7 H8 H9]. constructor; cbn [set_locks s_files s_names s_maps s_locks s_db s_objs s_next]; auto. Qed.
  Lemma core_objs cnt s l : Core cnt s -> Core cnt (set_objs s l).
  Proof. intros [H1 H2 H3 H4 H5 H6 H7 H8 H9]. constructor; cbn [set_objs s_files s_names s_maps s_locks s_db s_objs s_next]; auto. Qed.
  Lemma core_unlink cnt s nm : Core cnt s -> Core cnt (set_names s (adel nm (s_names s))).
  Proof.
    intros [H1 H2 H3 H4 H5 H6 H7 H8 H9]. constructor; cbn [set_names s_files s_names s_maps s_locks s_db s_objs s_next]; auto.
    intros a x. rewrite aget_adel. destruct (eqb a nm); [discriminate|apply H1].
  Qed.

  (** ** Frames *)

  (** The entries selected by [P] keep their mapping. *)
  Definition keeps (P : nat -> nat -> Prop) (s s' : sys) : Prop :=
    forall q n d m mp, P q n -> aget (q, n) (s_db s) = Some d -> i_map d = Some m -> aget m (s_maps s) = Some mp ->
      exists d', aget (q, n) (s_db s') = Some d' /\ same_map d d' /\ aget m (s_maps s') = Some mp.
  Definition all (_ _ : nat) : Prop := True.

  (** An info of an object agrees with the entry of its process. *)
  Definition sync (s : sys) (p nm : nat) (i : info) (mp : mapping) (f : file) : Prop :=
    exists d m, aget (p, nm) (s_db s) = Some d /\ same_map d i /\ i_map i = Some m /\ aget m (s_maps s) = Some mp /\
      aget (mp_file mp) (s_files s) = Some f.

  Lemma sync_facts cnt s p nm i mp f : Core cnt s -> sync s p nm i mp f ->
    f_name f = nm /\ i_size i = mp_len mp /\ i_fd i = Some (mp_file mp) /\ (page <= mp_len mp <= f_size f)%Z /\ file_ok f /\ (1 <= cnt p nm)%Z.
  Proof.
    intros HC [d [m [A [[B1 [B2 B3]] [C [D E]]]]]].
    destruct (c_db _ _ HC _ _ _ A) as [m' [mp' [f' [H1 [H2 [H3 [H4 [H5 [H6 [H7 H8]]]]]]]]]].
    assert (m' = m) by congruence. subst m'. assert (mp' = mp) by congruence. subst mp'. assert (f' = f) by congruence. subst f'.
    destruct (c_maps _ _ HC _ _ D) as [f' [G1 G2]]. assert (f' = f) by congruence. subst f'.
    repeat split; try tauto; try congruence; apply (c_files _ _ HC _ _ E).
  Qed.
  Lemma sync_deref s p nm i mp f : sync s p nm i mp f -> deref s i = Some (mp, f).
  Proof. intros [d [m [A [B [C [D E]]]]]]. eapply deref_some; eauto. Qed.

  Lemma sync_keeps P s s' p nm i mp f :
    keeps P s s' -> files_le s s' -> P p nm -> sync s p nm i mp f ->
    exists f', sync s' p nm i mp f' /\ f_name f' = f_name f /\ hdr_le (f_hdr f) (f_hdr f').
  Proof.
    intros HK HF HP [d [m [A [[B1 [B2 B3]] [C [D E]]]]]].
    destruct (HK _ _ _ _ _ HP A (eq_trans B1 C) D) as [d' [A' [[B1' [B2' B3']] D']]].
    destruct (HF _ _ E) as [f' [E' [En [Es Eh]]]]. exists f'. split; [|auto].
    exists d', m. repeat split; auto; congruence.
  Qed.

  Lemma keeps_refl P s : keeps P s s.
  Proof. intros q n d m mp _ A B C. exists d. repeat split; auto. Qed.
  Lemma keeps_trans P s1 s2 s3 : keeps P s1 s2 -> keeps P s2 s3 -> keeps P s1 s3.
  Proof.
    intros H1 H2 q n d m mp HP A B C. destruct (H1 _ _ _ _ _ HP A B C) as [d' [A' [[B1 [B2 B3]] C']]].
    destruct (H2 _ _ _ _ _ HP A' (eq_trans (eq_sym B1) B) C') as [d2 [A2 [[B12 [B22 B32]] C2]]].
    exists d2. repeat split; auto; congruence.
  Qed.
  Lemma keeps_same P s s' : s_db s' = s_db s -> s_maps s' = s_maps s -> keeps P s s'.
  Proof. intros H1 H2 q n d m mp _ A B C. exists d. rewrite H1, H2. repeat split; auto. Qed.
  Lemma files_le_same s s' : s_files s' = s_files s -> files_le s s'.
  Proof. intros H x y Hx. exists y. rewrite H. repeat split; auto using hdr_le_refl; lia. Qed.
  Lemma keeps_weaken (P Q : nat -> nat -> Prop) s s' : (forall a b, Q a b -> P a b) -> keeps P s s' -> keeps Q s s'.
  Proof. intros H HK q n d m mp HP. apply HK. auto. Qed.

  (** The state of an object. *)
  Definition obj_ok (s : sys) (o : obj) : Prop :=
    if o_created o then
      exists nm mp f, o_name o = Some nm /\ o_mtx o = Some nm /\ sync s (o_pid o) nm (o_info o) mp f /\
        (o_mode o = true -> mp_write mp = true /\ mp_len mp = fullsize nm) /\
        hdr_ok (lenof nm) (o_hdr o) /\
        (o_acc o <> Closed -> hdr_le (o_hdr o) (f_hdr f) /\ (h_ihs (o_hdr o) + h_max (o_hdr o) <= mp_len mp)%Z) /\
        (o_acc o = WriteAcc -> o_mode o = true)
    else o_name o = None /\ o_mtx o = None /\ o_acc o = Closed /\ o_hdr o = ihdr_default.

  Lemma obj_ok_keeps P s s' o :
    keeps P s s' -> files_le s s' -> (forall nm, o_created o = true -> o_name o = Some nm -> P (o_pid o) nm) ->
    obj_ok s o -> obj_ok s' o.
  Proof.
    intros HK HF HP. unfold obj_ok. destruct (o_created o); [|auto].
    intros [nm [mp [f [A [B [C [D [E [F G]]]]]]]]].
    destruct (sync_keeps _ _ _ _ _ _ _ _ HK HF (HP _ eq_refl A) C) as [f' [C' [Cn Ch]]].
    exists nm, mp, f'. repeat split; auto; try (apply D; assumption); try (apply E).
    - eapply hdr_le_trans; [apply F; assumption|apply Ch].
    - eapply hdr_le_trans; [apply F; assumption|apply Ch].
    - apply F. assumption.
  Qed.

  (** ** Destroy *)
  Lemma destroy_lemma cnt s o remove nm :
    Core cnt s -> obj_ok s o -> o_created o = true -> o_name o = Some nm ->
    exists s', mf_destroy remove s o =
        Some (s', Obj (o_pid o) false (o_san o) false Closed None ihdr_default info_default None (o_mode o), true) /\
      Core (plus1 cnt (o_pid o) nm (-1)) s' /\ files_le s s' /\
      keeps (fun q n => (q, n) <> (o_pid o, nm) \/ (1 < cnt (o_pid o) nm)%Z) s s' /\ s_objs s' = s_objs s /\ s_files s' = s_files s /\
      s_locks s' = s_locks (unlock nm s) /\
      (forall d, aget (o_pid o, nm) (s_db s) = Some d -> cnt (o_pid o) nm = 1%Z -> i_remove d || remove = true -> aget nm (s_names s') = None).
  Proof.
    intros HC HO Hc Hn. unfold obj_ok in HO. rewrite Hc in HO.
    destruct HO as [nm' [mp [f [A [B [C [D [E [F G]]]]]]]]]. assert (nm' = nm) by congruence. subst nm'.
    destruct (sync_facts _ _ _ _ _ _ _ HC C) as [S1 [S2 [S3 [S4 [S5 S6]]]]].
    destruct C as [d [m [C1 [[C2 [C3 C4]] [C5 [C6 C7]]]]]].
    destruct (c_db _ _ HC _ _ _ C1) as [m' [mp' [f' [H1 [H2 [H3 [H4 [H5 [H6 [H7 H8]]]]]]]]]].
    assert (m' = m) by congruence. subst m'.
    unfold mf_destroy. rewrite Hc, Hn. cbn [negb]. unfold db_remove. rewrite C1.
    cbn [i_ref i_map i_remove]. destruct (Z.ltb_spec (i_ref d - 1) 1) as [Hlt|Hge].
    - rewrite H1. unfold os_unmap. rewrite C6.
      pose proof (core_drop_entry cnt s (o_pid o) nm d m HC C1 H1 ltac:(lia)) as HC2.
      set (s1 := set_maps s (adel m (s_maps s))) in *.
      eexists. split; [reflexivity|].
      assert (HX : forall rm, Core (plus1 cnt (o_pid o) nm (-1)) (mtx_destroy o (set_db (if (rm : bool) then set_names s1 (adel nm (s_names s1)) else s1)
                     (adel (o_pid o, nm) (s_db (if rm then set_names s1 (adel nm (s_names s1)) else s1)))))).
      { intros rm. unfold mtx_destroy. rewrite B. apply core_locks. destruct rm; [|exact HC2].
        exact (core_unlink _ _ nm HC2). }
      split; [apply HX|]. unfold mtx_destroy. rewrite B.
      split; [apply files_le_same; destruct (i_remove d || remove); reflexivity|].
      split.
      2:{ split; [destruct (i_remove d || remove); reflexivity|]. split; [destruct (i_remove d || remove); reflexivity|].
          split; [destruct (i_remove d || remove); reflexivity|].
          intros d' Hd' _ Hr. assert (d' = d) by congruence. subst d'. rewrite Hr. cbn [unlock set_locks set_db set_names s_names]. rewrite aget_adel, eqb_refl. reflexivity. }
      intros q n x y z HP K1 K2 K3.
      assert (Hne : (q, n) <> (o_pid o, nm)) by (destruct HP as [HP|HP]; [exact HP|lia]).
      assert (y <> m).
      { intros ->. apply Hne. destruct (c_inj _ _ HC _ _ _ _ _ _ K1 C1) as [-> ->]; congruence. }
      exists x. destruct (i_remove d || remove); cbn [unlock set_locks set_db set_names s1 set_maps s_db s_maps];
        rewrite !aget_adel, !neq_eqb by assumption; repeat split; auto.
    - eexists. split; [reflexivity|].
      pose proof (core_set_entry cnt s (o_pid o) nm d
         (Info (i_ref d - 1) (i_remove d || remove) (i_fd d) (i_map d) (i_size d) (i_exists d)) (-1)%Z HC C1) as HC2.
      split.
      { unfold mtx_destroy. rewrite B. apply core_locks. apply HC2; [repeat split|reflexivity|cbn [i_ref]; lia]. }
      unfold mtx_destroy. rewrite B.
      split; [apply files_le_same; reflexivity|].
      split; [|split; [reflexivity|split; [reflexivity|split; [reflexivity|intros d' _ X; lia]]]].
      intros q n x y z HP K1 K2 K3. cbn [unlock set_locks set_db s_db s_maps]. rewrite aget_aset.
      destruct (eqb (q, n) (o_pid o, nm)) eqn:Eq.
      + apply eqb_true in Eq. injection Eq as -> ->. assert (x = d) by congruence. subst x. eexists.
        split; [reflexivity|]. split; [repeat split|assumption].
      + exists x. repeat split; auto.
  Qed.

  (** ** AddFile *)
  Lemma add_lemma cnt s p nm create len :
    Core cnt s -> (create = true -> len = lenof nm + ihdr_bytes /\ 0 < lenof nm)%Z -> (create = false -> len = 2)%Z ->
    (create = true -> forall d m mp, aget (p, nm) (s_db s) = Some d -> i_map d = Some m -> aget m (s_maps s) = Some mp ->
       mp_write mp = true /\ mp_len mp = fullsize nm) ->
    (db_add p nm create len s = Some None /\ create = false) \/
    exists s' i mp f, db_add p nm create len s = Some (Some (s', i)) /\
      Core (plus1 cnt p nm 1) s' /\ files_le s s' /\ keeps all s s' /\ s_objs s' = s_objs s /\ s_locks s' = s_locks s /\
      sync s' p nm i mp f /\ aget (p, nm) (s_db s') = Some i /\ (create = true -> mp_write mp = true /\ mp_len mp = fullsize nm) /\
      (i_exists i = false -> f_hdr f = ihdr_zero).
  Proof.
    intros HC Hcr Hrd Hown. unfold db_add. destruct (aget (p, nm) (s_db s)) as [d|] eqn:Ed.
    - right. destruct (c_db _ _ HC _ _ _ Ed) as [m [mp [f [H1 [H2 [H3 [H4 [H5 [H6 [H7 H8]]]]]]]]]].
      destruct (c_maps _ _ HC _ _ H2) as [f' [G1 G2]]. assert (f' = f) by congruence. subst f'.
      unfold os_check_size. cbn [i_fd i_map i_size]. rewrite H3, H1.
      replace (Z.ltb (i_size d) (Z.max len page)) with false.
      2:{ symmetry. apply Z.ltb_ge. rewrite H6. destruct create.
          - destruct (Hown eq_refl _ _ _ eq_refl H1 H2) as [_ ->]. destruct (Hcr eq_refl) as [-> _]. unfold fullsize. lia.
          - rewrite (Hrd eq_refl). unfold page in *. lia. }
      eexists _, _, mp, f. split; [reflexivity|].
      split; [apply (core_set_entry _ _ _ _ d _ 1 HC Ed); [repeat split; auto|reflexivity|cbn [i_ref]; lia]|].
      split; [apply files_le_same; reflexivity|].
      split.
      { intros q n x y z _ K1 K2 K3. cbn [set_db s_db s_maps]. rewrite aget_aset.
        destruct (eqb (q, n) (p, nm)) eqn:Eq.
        - apply eqb_true in Eq. injection Eq as -> ->. assert (x = d) by congruence. subst x. eexists.
          split; [reflexivity|]. split; [repeat split; cbn; congruence|assumption].
        - exists x. repeat split; auto. }
      split; [reflexivity|]. split; [reflexivity|]. split.
      { eexists _, m. cbn [set_db s_db s_maps s_files]. rewrite aget_aset_same. split; [reflexivity|]. repeat split; auto. }
      split; [cbn [set_db s_db]; apply aget_aset_same|].
      split; [intros Hc; eapply Hown; eauto|]. cbn. discriminate.
    - unfold os_alloc. destruct (aget nm (s_names s)) as [fd|] eqn:En.
      + right. destruct (c_names _ _ HC _ _ En) as [f [Hf Hfn]]. destruct (c_files _ _ HC _ _ Hf) as [F1 [F2 F3]].
        unfold os_check_size. cbn [i_fd i_map i_size info_default i_ref i_remove i_exists].
        unfold os_map. destruct create.
        * destruct (Hcr eq_refl) as [-> Hpos]. rewrite Hf. change (Z.max (lenof nm + ihdr_bytes) page) with (fullsize nm).
          destruct (core_file cnt s fd f (truncate (fullsize nm) f) HC Hf eq_refl) as [HC1 HF1].
          { cbn. rewrite F1, Hfn. reflexivity. }
          { exact F2. } { apply hdr_le_refl. }
          set (s1 := set_files s (aset fd (truncate (fullsize nm) f) (s_files s))) in *.
          assert (Hf1 : aget fd (s_files s1) = Some (truncate (fullsize nm) f)) by (cbn; apply aget_aset_same).
          assert (HP : (page <= fullsize nm)%Z) by (unfold fullsize; lia).
          pose proof (core_new_entry cnt s1 p nm fd _ (fullsize nm) true 1 true false HC1 Ed Hf1 Hfn ltac:(cbn; lia) eq_refl) as HC2.
          cbn [i_ref i_remove i_fd i_map i_size i_exists]. change (0 + 1)%Z with 1%Z.
          eexists _, _, (Mapping fd (fullsize nm) true), (truncate (fullsize nm) f).
          split; [reflexivity|]. split; [exact HC2|]. split; [exact HF1|].
          split.
          { intros q n x y z _ K1 K2 K3. exists x. cbn [set_db bump set_maps s_db s_maps s1 set_files].
            rewrite !aget_aset, !neq_eqb; [repeat split; auto| |]; [intros ->; apply (c_mfresh _ _ HC) in K3; cbn in K3; lia|congruence]. }
          split; [reflexivity|]. split; [reflexivity|]. split.
          { eexists _, _. cbn [set_db bump set_maps s_db s_maps s_files]. rewrite aget_aset_same. split; [reflexivity|].
            split; [repeat split|]. split; [reflexivity|]. rewrite aget_aset_same. split; [reflexivity|]. exact Hf1. }
          split; [cbn [set_db s_db]; apply aget_aset_same|].
          split; [auto|]. cbn. discriminate.
        * rewrite (Hrd eq_refl). change (Z.max 2 page) with page.
          assert (HP : (page <= f_size f)%Z) by (rewrite F1; unfold fullsize; lia).
          pose proof (core_new_entry cnt s p nm fd f page false 1 true false HC Ed Hf Hfn ltac:(lia) eq_refl) as HC2.
          cbn [i_ref i_remove i_fd i_map i_size i_exists]. change (0 + 1)%Z with 1%Z.
          eexists _, _, (Mapping fd page false), f.
          split; [reflexivity|]. split; [exact HC2|]. split; [apply files_le_same; reflexivity|].
          split.
          { intros q n x y z _ K1 K2 K3. exists x. cbn [set_db bump set_maps s_db s_maps].
            rewrite !aget_aset, !neq_eqb; [repeat split; auto| |]; [intros ->; apply (c_mfresh _ _ HC) in K3; lia|congruence]. }
          split; [reflexivity|]. split; [reflexivity|]. split.
          { eexists _, _. cbn [set_db bump set_maps s_db s_maps s_files]. rewrite aget_aset_same. split; [reflexivity|].
            split; [repeat split|]. split; [reflexivity|]. rewrite aget_aset_same. split; [reflexivity|]. exact Hf. }
          split; [cbn [set_db s_db]; apply aget_aset_same|].
          split; [discriminate|]. cbn. discriminate.
      + destruct create; [right|left; auto].
        destruct (Hcr eq_refl) as [-> Hpos].
        unfold os_check_size. cbn [i_fd i_map i_size info_default i_ref i_remove i_exists].
        unfold os_map. cbn [bump set_names set_files s_files s_names s_maps s_locks s_db s_objs s_next].
        rewrite aget_aset_same. change (Z.max (lenof nm + ihdr_bytes) page) with (fullsize nm).
        set (f := truncate (fullsize nm) (File nm 0 ihdr_zero (fun _ => 0%Z))).
        assert (Hok : file_ok f).
        { unfold file_ok, f, hdr_ok. cbn. repeat split; try lia; try exact Hpos; left; split; reflexivity. }
        destruct (core_new_file cnt s nm f HC En eq_refl Hok) as [HC1 HF1].
        set (s1 := bump (set_names (set_files s (aset (s_next s) f (s_files s))) (aset nm (s_next s) (s_names s)))) in *.
        assert (Hf1 : aget (s_next s) (s_files s1) = Some f) by (cbn; apply aget_aset_same).
        assert (HP : (page <= fullsize nm)%Z) by (unfold fullsize; lia).
        pose proof (core_new_entry cnt s1 p nm (s_next s) _ (fullsize nm) true 1 false false HC1 Ed Hf1 eq_refl ltac:(cbn; lia) eq_refl) as HC2.
        cbn [i_ref i_remove i_fd i_map i_size i_exists]. change (0 + 1)%Z with 1%Z.
        rewrite aset_aset.
        eexists _, _, (Mapping (s_next s) (fullsize nm) true), f.
        split; [reflexivity|]. split; [exact HC2|]. split; [exact HF1|].
        split.
        { intros q n x y z _ K1 K2 K3. exists x. cbn [set_db bump set_maps s_db s_maps s1 set_files].
          rewrite !aget_aset, !neq_eqb; [repeat split; auto| |]; [intros ->; apply (c_mfresh _ _ HC) in K3; cbn in K3; lia|congruence]. }
        split; [reflexivity|]. split; [reflexivity|]. split.
        { eexists _, _. cbn [set_db bump set_maps s_db s_maps s_files]. rewrite aget_aset_same. split; [reflexivity|].
          split; [repeat split|]. split; [reflexivity|]. rewrite aget_aset_same. split; [reflexivity|]. exact Hf1. }
        split; [cbn [set_db s_db]; apply aget_aset_same|].
        split; [auto|]. reflexivity.
  Qed.

  (** ** Create *)
  Lemma default_hdr_ok L h : (0 < L)%Z -> h = IHdr ihdr_bytes 0 L \/ h = ihdr_default -> hdr_ok L h.
  Proof. intros HL [-> | ->]; unfold hdr_ok; cbn; (split; [right; reflexivity|lia]). Qed.

  Lemma create_lemma cnt s o nm create len san :
    Core cnt s -> obj_ok s o -> o_created o = false ->
    (create = true -> len = lenof nm /\ 0 < len)%Z -> (create = false -> len = 0%Z /\ san = false) ->
    (create = true -> forall d m mp, aget (o_pid o, nm) (s_db s) = Some d -> i_map d = Some m -> aget m (s_maps s) = Some mp ->
       mp_write mp = true /\ mp_len mp = fullsize nm) ->
    exists s' o' b, mf_create nm create len san true false s o = Some (s', o', b) /\
      o_pid o' = o_pid o /\ o_mode o' = create /\ files_le s s' /\ keeps all s s' /\ s_objs s' = s_objs s /\ s_locks s' = s_locks s /\ obj_ok s' o' /\
      (b = true -> o_created o' = true /\ o_name o' = Some nm /\ o_acc o' = Closed /\ Core (plus1 cnt (o_pid o) nm 1) s') /\
      (b = false -> o_created o' = false /\ Core cnt s').
  Proof.
    intros HC HO Hc Hcr Hrd Hown. unfold obj_ok in HO. rewrite Hc in HO. destruct HO as [On [Om [Oa Oh]]].
    unfold mf_create.
    replace (negb (create && Z.ltb 0 len || negb create && Z.eqb len 0) || san && negb create) with false.
    2:{ destruct create.
        - destruct (Hcr eq_refl) as [_ Hp]. apply Z.ltb_lt in Hp. rewrite Hp. cbn. rewrite andb_false_r. reflexivity.
        - destruct (Hrd eq_refl) as [-> ->]. reflexivity. }
    cbn [o_name o_pid o_created o_san o_pinit o_acc o_hdr o_info o_mtx o_mode]. rewrite On.
    rewrite (neq_eqb None (Some nm)) by discriminate. cbn [negb orb].
    unfold mf_destroy at 1. cbn [o_created]. rewrite Hc. cbn [negb].
    cbn [o_name o_pid o_created o_san o_pinit o_acc o_hdr o_info o_mtx o_mode]. rewrite Om.
    destruct (add_lemma cnt s (o_pid o) nm create (if create then len + ihdr_bytes else 2)%Z HC) as [[Ha Hcf]|Ha].
    { intros ->. destruct (Hcr eq_refl) as [-> ?]. auto. }
    { intros ->. reflexivity. }
    { exact Hown. }
    { rewrite Ha. eexists s, _, false. split; [reflexivity|].
      repeat (split; [first [reflexivity|apply files_le_refl|apply keeps_refl]|]).
      split; [unfold obj_ok; cbn; auto|]. split; [discriminate|]. cbn. auto. }
    destruct Ha as [s1 [i [mp [f [Ha [HC1 [HF1 [HK1 [HO1 [HL1 [HS1 [HD1 [Hw1 He1]]]]]]]]]]]]].
    rewrite Ha. cbn [o_name o_pid o_created o_san o_pinit o_acc o_hdr o_info o_mtx o_mode mtx_destroy negb].
    destruct (sync_facts _ _ _ _ _ _ _ HC1 HS1) as [S1 [S2 [S3 [S4 [S5 S6]]]]].
    destruct S5 as [F1 [F2 F3]].
    destruct HS1 as [d [m [C1 [[C2 [C3 C4]] [C5 [C6 C7]]]]]]. 
    assert (HS1 : sync s1 (o_pid o) nm i mp f) by (exists d, m; repeat split; auto).
    unfold mf_create_header. cbn [o_name o_pid o_created o_san o_pinit o_acc o_hdr o_info o_mtx o_mode].
    rewrite S1 in F2, F3.
    destruct create.
    - destruct (Hcr eq_refl) as [-> Hp]. destruct (is_locked nm s1).
      + eexists s1, _, true. split; [reflexivity|].
        repeat (split; [first [reflexivity|assumption]|]). split.
        { unfold obj_ok. cbn. exists nm, mp, f. split; [reflexivity|]. split; [reflexivity|]. split; [exact HS1|].
          split; [exact Hw1|]. split; [apply default_hdr_ok; [exact F3|left; reflexivity]|]. split; [tauto|discriminate]. }
        split; [cbn; auto|discriminate].
      + rewrite (hdr_read_lemma _ _ _ _ _ _ HC1 C5 C6 C7).
        cbn [andb]. rewrite andb_false_r, orb_false_r.
        destruct (negb (i_exists i) || Z.eqb (h_ihs (f_hdr f)) 0) eqn:Ez.
        * assert (Hz : hdr_le (f_hdr f) (IHdr ihdr_bytes 0 (lenof nm))).
          { split; cbn; [|auto]. apply F2. }
          destruct (hdr_write_lemma _ s1 i m mp f (IHdr (h_ihs ihdr_default) (h_cur ihdr_default) (lenof nm)) HC1 C5 C6 C7) as [s2 [G1 [G2 [G3 [G4 G5]]]]].
          { apply Hw1. reflexivity. }
          { rewrite S1. apply default_hdr_ok; [exact F3|left; reflexivity]. }
          { exact Hz. }
          rewrite G1. destruct G5 as [R1 [R2 [R3 [R4 [R5 R6]]]]].
          assert (HK2 : keeps all s1 s2) by (apply keeps_same; assumption).
          destruct (sync_keeps _ _ _ _ _ _ _ _ HK2 G4 I HS1) as [f2 [T1 [T2 T3]]].
          eexists s2, _, true. split; [reflexivity|].
          split; [reflexivity|]. split; [reflexivity|]. split; [eapply files_le_trans; eauto|].
          split; [eapply keeps_trans; eauto|]. split; [congruence|]. split; [congruence|]. split.
          { unfold obj_ok. cbn. exists nm, mp, f2. split; [reflexivity|]. split; [reflexivity|]. split; [exact T1|].
            split; [exact Hw1|]. split; [apply default_hdr_ok; [exact F3|left; reflexivity]|].
            split; [tauto|discriminate]. }
          split; [cbn; auto|discriminate].
        * eexists s1, _, true. split; [reflexivity|].
          repeat (split; [first [reflexivity|assumption]|]). split.
          { unfold obj_ok. cbn. exists nm, mp, f. split; [reflexivity|]. split; [reflexivity|]. split; [exact HS1|].
            split; [exact Hw1|]. split; [exact F2|]. split; [tauto|discriminate]. }
          split; [cbn; auto|discriminate].
    - destruct (is_locked nm s1).
      + eexists s1, _, true. split; [reflexivity|].
        repeat (split; [first [reflexivity|assumption]|]). split.
        { unfold obj_ok. cbn. exists nm, mp, f. split; [reflexivity|]. split; [reflexivity|]. split; [exact HS1|].
          split; [discriminate|]. split; [unfold hdr_ok; cbn; split; [right; reflexivity|lia]|]. split; [tauto|discriminate]. }
        split; [cbn; auto|discriminate].
      + rewrite (hdr_read_lemma _ _ _ _ _ _ HC1 C5 C6 C7).
        unfold db_check_size, os_check_size. rewrite S3, C5.
        replace (Z.ltb (i_size i) (Z.max (h_ihs (f_hdr f)) page)) with false.
        2:{ symmetry. apply Z.ltb_ge. destruct F2 as [[[-> _]| ->] _]; unfold ihdr_bytes, page in *; lia. }
        set (s2 := set_db s1 (aset (o_pid o, nm) i (s_db s1))).
        assert (HC2 : Core (plus1 cnt (o_pid o) nm 1) s2).
        { destruct (c_db _ _ HC1 _ _ _ HD1) as [? [? [? [_ [_ [_ [_ [_ [_ [X1 X2]]]]]]]]]].
          eapply core_ext; [|apply (core_set_entry _ s1 (o_pid o) nm i i 0 HC1 HD1); [repeat split|lia|lia]].
          intros a b. unfold plus1 at 1. destruct (Nat.eqb a (o_pid o) && Nat.eqb b nm); [lia|reflexivity]. }
        rewrite (hdr_read_lemma _ s2 i m mp f HC2 C5 C6 C7).
        assert (HK2 : keeps all s1 s2).
        { intros q n x y z _ K1 K2 K3. unfold s2. cbn [set_db s_db s_maps]. rewrite aget_aset.
          destruct (eqb (q, n) (o_pid o, nm)) eqn:Eq.
          - apply eqb_true in Eq. injection Eq as -> ->. assert (x = i) by congruence. subst x. eexists.
            split; [reflexivity|]. split; [repeat split|assumption].
          - exists x. repeat split; auto. }
        assert (HF2 : files_le s1 s2) by (apply files_le_same; reflexivity).
        destruct (sync_keeps _ _ _ _ _ _ _ _ HK2 HF2 I HS1) as [f2 [T1 [T2 T3]]].
        eexists s2, _, true. split; [reflexivity|].
        split; [reflexivity|]. split; [reflexivity|]. split; [eapply files_le_trans; eauto|].
        split; [eapply keeps_trans; eauto|]. split; [exact HO1|]. split; [exact HL1|]. split.
        { unfold obj_ok. cbn. exists nm, mp, f2. split; [reflexivity|]. split; [reflexivity|]. split; [exact T1|].
          split; [discriminate|]. split; [destruct (Z.eqb (h_ihs (f_hdr f)) 0); [unfold hdr_ok; cbn; split; [right; reflexivity|lia]|exact F2]|].
          split; [tauto|discriminate]. }
        split; [cbn; auto|discriminate].
  Qed.

  (** ** Access *)
  Lemma access_lemma cnt s o nm :
    Core cnt s -> obj_ok s o -> o_created o = true -> o_name o = Some nm ->
    ((i_size (o_info o) < ihdr_bytes + lenof nm)%Z -> i_ref (o_info o) = 1%Z /\ cnt (o_pid o) nm = 1%Z) ->
    is_locked nm s = false ->
    exists s' o' mp f, mf_access false s o = Some (s', o', true) /\ Core cnt s' /\ files_le s s' /\
      keeps (fun q n => (q, n) <> (o_pid o, nm) \/ (ihdr_bytes + lenof nm <= i_size (o_info o))%Z) s s' /\ s_objs s' = s_objs s /\ s_files s' = s_files s /\
      o_pid o' = o_pid o /\ o_created o' = true /\ o_name o' = Some nm /\ o_mtx o' = Some nm /\ o_mode o' = o_mode o /\ o_acc o' = o_acc o /\
      o_pinit o' = o_pinit o /\ o_san o' = o_san o /\
      sync s' (o_pid o) nm (o_info o') mp f /\ (o_mode o = true -> mp_write mp = true /\ mp_len mp = fullsize nm) /\
      hdr_ok (lenof nm) (o_hdr o') /\ hdr_le (o_hdr o') (f_hdr f) /\ (h_ihs (o_hdr o') + h_max (o_hdr o') <= mp_len mp)%Z /\
      o_hdr o' = (if Z.eqb (h_ihs (o_hdr o)) 0 then o_hdr o else f_hdr f) /\ s_locks s' = nm :: s_locks s.
  Proof.
    intros HC HO Hc Hn Hg Hl. unfold obj_ok in HO. rewrite Hc in HO.
    destruct HO as [nm' [mp [f [A [B [C [D [E [F G]]]]]]]]]. assert (nm' = nm) by congruence. subst nm'.
    destruct (sync_facts _ _ _ _ _ _ _ HC C) as [S1 [S2 [S3 [S4 [S5 S6]]]]].
    pose proof C as C0. destruct C0 as [d [m [C1 [[C2 [C3 C4]] [C5 [C6 C7]]]]]].
    destruct S5 as [F1 [F2 F3]]. rewrite S1 in F1, F2, F3.
    unfold mf_access. rewrite Hc, C5, B, Hn, Hl. cbn [negb]. rewrite andb_false_r.
    set (s1 := lock nm s). assert (HC1 : Core cnt s1) by (apply core_locks; exact HC).
    rewrite (hdr_read_lemma cnt s1 (o_info o) m mp f HC1 C5 C6 C7).
    set (h := if Z.eqb (h_ihs (o_hdr o)) 0 then o_hdr o else f_hdr f).
    assert (Hh : hdr_ok (lenof nm) h) by (unfold h; destruct (Z.eqb _ 0); assumption).
    assert (Hle : hdr_le h (f_hdr f)).
    { unfold h. destruct (Z.eqb_spec (h_ihs (o_hdr o)) 0) as [Hz|]; [|apply hdr_le_refl].
      destruct E as [[[_ E1]|E1] _]; [|unfold ihdr_bytes in *; lia].
      split; [rewrite E1; destruct F2 as [_ [F2 _]]; lia|]. intros X. unfold ihdr_bytes in X. lia. }
    assert (Hlen : (h_ihs h + h_max h <= ihdr_bytes + lenof nm)%Z).
    { destruct Hh as [[[Hh _]|Hh] [_ Hh2]]; unfold ihdr_bytes in *; lia. }
    destruct (Z.ltb_spec (i_size (o_info o)) (h_ihs h + h_max h)) as [Hlt|Hge].
    - destruct (Hg ltac:(lia)) as [Hr Hcnt].
      unfold db_check_size, os_check_size. rewrite S3, C5.
      set (len := Z.max (h_ihs h + h_max h) page).
      replace (Z.ltb (i_size (o_info o)) len) with true by (symmetry; apply Z.ltb_lt; unfold len; lia).
      unfold os_unmap. replace (aget m (s_maps s1)) with (Some mp) by (symmetry; exact C6).
      unfold os_map. cbn [set_maps s_next].
      set (i' := Info (i_ref (o_info o)) (i_remove (o_info o)) (Some (mp_file mp)) (Some (s_next s1)) len (i_exists (o_info o))).
      assert (HCg : Core cnt (set_db s1 (aset (o_pid o, nm) (o_info o) (s_db s1)))).
      { destruct (c_db _ _ HC1 _ _ _ C1) as [? [? [? [_ [_ [_ [_ [_ [_ [X1 X2]]]]]]]]]].
        eapply core_ext; [|apply (core_set_entry cnt s1 (o_pid o) nm d (o_info o) 0 HC1 C1); [repeat split; auto|lia|lia]].
        intros a b. unfold plus1. destruct (_ && _); [lia|reflexivity]. }
      assert (HC2 : Core cnt (set_db (bump (set_maps s1 (aset (s_next s1) (Mapping (mp_file mp) len false) (adel m (s_maps s1)))))
                     (aset (o_pid o, nm) i' (s_db s1)))).
      { pose proof (core_grow cnt _ (o_pid o) nm (o_info o) m mp f len i' HCg) as HX.
        cbn [set_db s_db s_maps s_files s_next bump set_maps] in HX. rewrite aset_aset in HX. apply HX.
        - apply aget_aset_same.
        - exact C5.
        - exact C6.
        - exact C7.
        - rewrite F1. unfold len, fullsize, page in *. lia.
        - unfold i'. rewrite S3. reflexivity. }
      cbn [i_size i']. replace (Z.ltb len (h_ihs h + h_max h)) with false by (symmetry; apply Z.ltb_ge; unfold len; lia).
      eexists _, _, (Mapping (mp_file mp) len false), f. split; [reflexivity|].
      split; [exact HC2|]. split; [apply files_le_same; reflexivity|]. split.
      { intros q n x y z HP K1 K2 K3. assert (Hne : (q, n) <> (o_pid o, nm)) by (destruct HP; [assumption|lia]).
        exists x. cbn [set_db bump set_maps s_db s_maps]. rewrite !aget_aset, (neq_eqb (q, n)) by assumption. split; [exact K1|]. split; [repeat split|].
        rewrite (neq_eqb y); [|intros ->; apply (c_mfresh _ _ HC) in K3; cbn in K3; lia].
        rewrite aget_adel, neq_eqb; [exact K3|].
        intros ->. apply Hne. destruct (c_inj _ _ HC _ _ _ _ _ _ K1 C1) as [-> ->]; congruence. }
      cbn [o_name o_pid o_created o_san o_pinit o_acc o_hdr o_info o_mtx o_mode].
      repeat (split; [first [reflexivity|assumption]|]). split.
      { eexists i', _. cbn [set_db bump set_maps s_db s_maps s_files]. split; [apply aget_aset_same|]. split; [repeat split|].
        split; [reflexivity|]. split; [apply aget_aset_same|exact C7]. }
      split; [intros Hm; destruct (D Hm) as [_ D2]; unfold fullsize, page, ihdr_bytes in *; lia|].
      repeat (split; [first [assumption|reflexivity]|]). split; [cbn; unfold len; lia|]. split; reflexivity.
    - replace (Z.ltb (i_size (o_info o)) (h_ihs h + h_max h)) with false by (symmetry; apply Z.ltb_ge; lia).
      eexists s1, _, mp, f. split; [reflexivity|]. split; [exact HC1|]. split; [apply files_le_same; reflexivity|].
      split; [apply keeps_same; reflexivity|].
      cbn [o_name o_pid o_created o_san o_pinit o_acc o_hdr o_info o_mtx o_mode].
      repeat (split; [first [reflexivity|assumption]|]). split; [rewrite <- S2; lia|]. split; reflexivity.
  Qed.

  (** ** Reading and writing *)
  Lemma add64_small a b : (0 <= a)%Z -> (0 <= b)%Z -> (a + b < 2 ^ 64)%Z -> add64 a b = (a + b)%Z.
  Proof. intros. unfold add64. apply Z.mod_small. lia. Qed.

  Lemma read_lemma cnt s o len off :
    Core cnt s -> obj_ok s o -> (0 <= len /\ 0 <= off /\ len + off < 2 ^ 64)%Z ->
    exists r, mf_read len off s o = Some r /\
      (r <> None <-> o_created o = true /\ o_acc o = ReadAcc /\ (0 < len + off <= h_cur (o_hdr o))%Z) /\
      (forall bs, r = Some bs -> exists mp f, deref s (o_info o) = Some (mp, f) /\ bs = range (f_data f) off len).
  Proof.
    intros HC HO [Hl [Ho Hs]]. unfold mf_read. rewrite add64_small by assumption.
    destruct (o_created o) eqn:Hc; cbn [negb].
    2:{ exists None. split; [reflexivity|]. split; [split; [congruence|intros [? _]; discriminate]|discriminate]. }
    destruct (o_acc o) eqn:Ha; cbn [acc_eqb negb].
    1,3: (exists None; split; [reflexivity|]; split; [split; [congruence|intros [_ [? _]]; discriminate]|discriminate]).
    destruct (Z.eqb_spec (len + off) 0) as [Hz|Hz].
    { exists None. split; [reflexivity|]. split; [split; [congruence|intros [_ [_ ?]]; lia]|discriminate]. }
    destruct (Z.ltb_spec (h_cur (o_hdr o)) (len + off)) as [Hlt|Hge].
    { exists None. split; [reflexivity|]. split; [split; [congruence|intros [_ [_ ?]]; lia]|discriminate]. }
    unfold obj_ok in HO. rewrite Hc in HO. destruct HO as [nm [mp [f [A [B [C [D [E [F G]]]]]]]]].
    destruct (F ltac:(congruence)) as [F1 F2].
    destruct (sync_facts _ _ _ _ _ _ _ HC C) as [S1 [S2 [S3 [S4 [S5 S6]]]]].
    unfold data_read. rewrite (sync_deref _ _ _ _ _ _ C).
    assert (Hi : h_ihs (o_hdr o) = ihdr_bytes).
    { destruct E as [[[E1 E2]|E1] [E3 E4]]; [lia|exact E1]. }
    replace (within mp f (h_ihs (o_hdr o) + off + len) && Z.eqb (h_ihs (o_hdr o)) ihdr_bytes) with true.
    2:{ symmetry. unfold within. destruct E as [_ [E3 E4]]. rewrite Hi, Z.eqb_refl, andb_true_r. apply andb_true_iff. split; apply Z.leb_le; lia. }
    eexists. split; [reflexivity|]. split; [split; [intros _; split; [reflexivity|]; split; [reflexivity|lia]|intros _; discriminate]|].
    intros bs [= <-]. eauto.
  Qed.

  Lemma data_write_lemma cnt s p nm o mp f off bs :
    Core cnt s -> sync s p nm (o_info o) mp f -> mp_write mp = true -> h_ihs (o_hdr o) = ihdr_bytes ->
    (0 <= off)%Z -> (ihdr_bytes + off + Z.of_nat (length bs) <= mp_len mp)%Z ->
    exists s', data_write s (o_info o) (o_hdr o) off bs = Some s' /\ Core cnt s' /\ files_le s s' /\ same_rest s s' /\
      s' = set_files s (aset (mp_file mp) (File (f_name f) (f_size f) (f_hdr f) (overwrite (f_data f) off bs)) (s_files s)).
  Proof.
    intros HC HS Hw Hi Ho Hlen. destruct (sync_facts _ _ _ _ _ _ _ HC HS) as [S1 [S2 [S3 [S4 [S5 S6]]]]].
    unfold data_write. rewrite (sync_deref _ _ _ _ _ _ HS).
    replace (within mp f (h_ihs (o_hdr o) + off + Z.of_nat (length bs)) && Z.eqb (h_ihs (o_hdr o)) ihdr_bytes && mp_write mp) with true.
    2:{ symmetry. unfold within. rewrite Hi, Z.eqb_refl, Hw, !andb_true_r. apply andb_true_iff. split; apply Z.leb_le; lia. }
    destruct HS as [d [m [C1 [C2 [C5 [C6 C7]]]]]].
    destruct (core_file cnt s (mp_file mp) f (File (f_name f) (f_size f) (f_hdr f) (overwrite (f_data f) off bs)) HC C7 eq_refl eq_refl) as [X1 X2].
    { apply S5. } { apply hdr_le_refl. }
    eexists. split; [reflexivity|]. split; [exact X1|]. split; [exact X2|]. split; [repeat split|reflexivity].
  Qed.

  Lemma write_address_lemma cnt s o len :
    Core cnt s -> obj_ok s o -> (0 <= len)%Z ->
    (mf_write_address len s o = Some None /\ ~ (o_created o = true /\ o_acc o = WriteAcc /\ (0 < len <= h_max (o_hdr o))%Z)) \/
    exists s' nm mp f, o_created o = true /\ o_acc o = WriteAcc /\ (0 < len <= h_max (o_hdr o))%Z /\ o_name o = Some nm /\
      deref s (o_info o) = Some (mp, f) /\ mp_write mp = true /\ h_ihs (o_hdr o) = ihdr_bytes /\ (ihdr_bytes + h_max (o_hdr o) <= mp_len mp)%Z /\
      let o' := Obj (o_pid o) (o_created o) (o_san o) (o_pinit o) (o_acc o) (o_name o) (IHdr (h_ihs (o_hdr o)) len (h_max (o_hdr o))) (o_info o) (o_mtx o) (o_mode o) in
      let f' := File (f_name f) (f_size f) (IHdr (h_ihs (f_hdr f)) len (h_max (f_hdr f))) (f_data f) in
      mf_write_address len s o = Some (Some (s', o')) /\ Core cnt s' /\ files_le s s' /\ same_rest s s' /\ obj_ok s' o' /\
      sync s' (o_pid o) nm (o_info o) mp f' /\ s' = set_files s (aset (mp_file mp) f' (s_files s)).
  Proof.
    intros HC HO Hl. unfold mf_write_address.
    destruct (o_created o) eqn:Hc; cbn [negb].
    2:{ left. split; [reflexivity|]. intros [? _]. discriminate. }
    destruct (o_acc o) eqn:Ha; cbn [acc_eqb negb].
    1,2: (left; split; [reflexivity|]; intros [_ [? _]]; discriminate).
    destruct (Z.eqb_spec len 0) as [Hz|Hz]; [left; split; [reflexivity|]; intros [_ [_ ?]]; lia|].
    destruct (Z.ltb_spec (h_max (o_hdr o)) len) as [Hlt|Hge]; [left; split; [reflexivity|]; intros [_ [_ ?]]; lia|].
    right. pose proof HO as HO0. unfold obj_ok in HO. rewrite Hc in HO. destruct HO as [nm [mp [f [A [B [C [D [E [F G]]]]]]]]].
    destruct (F ltac:(congruence)) as [[Fa Fb] F2].
    destruct (sync_facts _ _ _ _ _ _ _ HC C) as [S1 [S2 [S3 [S4 [S5 S6]]]]].
    destruct (D (G Ha)) as [Dw Dl].
    assert (Hi : h_ihs (o_hdr o) = ihdr_bytes).
    { destruct E as [[[E1 E2]|E1] [E3 E4]]; [lia|exact E1]. }
    pose proof C as C0. destruct C0 as [d [m [C1 [C2 [C5 [C6 C7]]]]]].
    rewrite (hdr_read_lemma _ _ _ _ _ _ HC C5 C6 C7).
    destruct S5 as [T1 [T2 T3]].
    destruct (hdr_write_lemma cnt s (o_info o) m mp f (IHdr (h_ihs (f_hdr f)) len (h_max (f_hdr f))) HC C5 C6 C7 Dw) as [s' [G1 [G2 [G3 [G4 G5]]]]].
    { destruct T2 as [U1 [U2 U3]]. split; [exact U1|]. cbn. split; [|exact U3]. lia. }
    { split; cbn; [lia|auto]. }
    rewrite G1. exists s', nm, mp, f.
    assert (HK : keeps all s s') by (destruct G5 as [R1 [R2 [R3 [R4 [R5 R6]]]]]; apply keeps_same; assumption).
    assert (HS' : sync s' (o_pid o) nm (o_info o) mp (File (f_name f) (f_size f) (IHdr (h_ihs (f_hdr f)) len (h_max (f_hdr f))) (f_data f))).
    { exists d, m. rewrite G2. cbn [set_files s_db s_maps s_files]. repeat split; auto; try apply C2. apply aget_aset_same. }
    split; [reflexivity|]. split; [reflexivity|]. split; [lia|]. split; [exact A|]. split; [exact (sync_deref _ _ _ _ _ _ C)|].
    split; [exact Dw|]. split; [exact Hi|]. split; [lia|]. cbn zeta.
    split; [reflexivity|]. split; [exact G3|]. split; [exact G4|]. split; [exact G5|]. split.
    { unfold obj_ok. cbn. rewrite ?Hc, ?Ha. exists nm, mp, (File (f_name f) (f_size f) (IHdr (h_ihs (f_hdr f)) len (h_max (f_hdr f))) (f_data f)).
      split; [exact A|]. split; [exact B|]. split; [exact HS'|]. split; [exact D|]. split.
      - unfold hdr_ok. cbn. destruct E as [E1 [E2 E3]]. split; [exact E1|]. split; [lia|exact E3].
      - split; [intros _; split; [split; cbn; [exact Fa|exact Fb]|exact F2]|intros _; apply G; assumption]. }
    split; [exact HS'|exact G2].
  Qed.

  Lemma length_range d off len : length (range d off len) = Z.to_nat len.
  Proof. unfold range. rewrite map_length, seq_length. reflexivity. Qed.

  (** A successful write of [bs] at [off] of the file behind [o]. *)
  Definition wrote (s s' : sys) (o : obj) (off : Z) (bs : list Z) : Prop :=
    exists mp f, deref s (o_info o) = Some (mp, f) /\
      s_files s' = aset (mp_file mp) (File (f_name f) (f_size f) (IHdr (h_ihs (f_hdr f)) (off + Z.of_nat (length bs)) (h_max (f_hdr f)))
                                          (overwrite (f_data f) off bs)) (s_files s) /\
      same_rest s s'.

  Lemma write_tail cnt s o s1 nm mp f off bs k :
    (0 <= off)%Z -> k = (off + Z.of_nat (length bs))%Z ->
    o_created o = true -> o_acc o = WriteAcc -> (0 < k <= h_max (o_hdr o))%Z -> o_name o = Some nm ->
    deref s (o_info o) = Some (mp, f) -> mp_write mp = true -> h_ihs (o_hdr o) = ihdr_bytes -> (ihdr_bytes + h_max (o_hdr o) <= mp_len mp)%Z ->
    let o' := Obj (o_pid o) (o_created o) (o_san o) (o_pinit o) (o_acc o) (o_name o) (IHdr (h_ihs (o_hdr o)) k (h_max (o_hdr o))) (o_info o) (o_mtx o) (o_mode o) in
    let f' := File (f_name f) (f_size f) (IHdr (h_ihs (f_hdr f)) k (h_max (f_hdr f))) (f_data f) in
    Core cnt s1 -> files_le s s1 -> same_rest s s1 -> obj_ok s1 o' -> sync s1 (o_pid o) nm (o_info o) mp f' ->
    s1 = set_files s (aset (mp_file mp) f' (s_files s)) ->
    exists s2, data_write s1 (o_info o') (o_hdr o') off bs = Some s2 /\ Core cnt s2 /\ files_le s s2 /\ keeps all s s2 /\ s_objs s2 = s_objs s /\
      obj_ok s2 o' /\ wrote s s2 o off bs /\
      (forall b, obj_ok s2 (Obj (o_pid o') (o_created o') (o_san o') b (o_acc o') (o_name o') (o_hdr o') (o_info o') (o_mtx o') (o_mode o'))).
  Proof.
    intros Hoff Hk A1 A2 A3 A4 A5 A6 A7 A8 o' f' B1 B2 B3 B4 B5 B6.
    destruct (data_write_lemma cnt s1 (o_pid o) nm o' mp f' off bs B1 B5 A6 A7 Hoff ltac:(lia)) as [s2 [C1 [C2 [C3 [C4 C5]]]]].
    exists s2. split; [exact C1|]. split; [exact C2|].
    assert (HF : files_le s s2) by (eapply files_le_trans; eauto).
    destruct B3 as [R1 [R2 [R3 [R4 [R5 R6]]]]], C4 as [Q1 [Q2 [Q3 [Q4 [Q5 Q6]]]]].
    assert (HK : keeps all s s2) by (apply keeps_same; congruence).
    assert (HK1 : keeps all s1 s2) by (apply keeps_same; assumption).
    assert (HO2 : obj_ok s2 o') by (eapply obj_ok_keeps; eauto; intros; exact I).
    split; [exact HF|]. split; [exact HK|]. split; [congruence|]. split; [exact HO2|]. split.
    - exists mp, f. split; [exact A5|]. split.
      + rewrite C5, B6. cbn [set_files s_files]. rewrite aset_aset. subst k. reflexivity.
      + repeat split; congruence.
    - intros b. exact HO2.
  Qed.

  Lemma write_lemma cnt s o bs off :
    Core cnt s -> obj_ok s o -> (0 <= off /\ Z.of_nat (length bs) + off < 2 ^ 64)%Z ->
    exists s' o' k, mf_write bs off s o = Some (s', o', k) /\ Core cnt s' /\ files_le s s' /\ keeps all s s' /\ s_objs s' = s_objs s /\ obj_ok s' o' /\
      (forall p nm, uses p nm o' = uses p nm o) /\ o_acc o' = o_acc o /\
      ((k = 0%Z /\ s' = s /\ o' = o /\ ~ (o_created o = true /\ o_acc o = WriteAcc /\ (0 < off + Z.of_nat (length bs) <= h_max (o_hdr o))%Z)) \/
       (k = Z.of_nat (length bs) /\ (o_created o = true /\ o_acc o = WriteAcc /\ (0 < off + Z.of_nat (length bs) <= h_max (o_hdr o))%Z) /\ wrote s s' o off bs)).
  Proof.
    intros HC HO [Ho Hs]. unfold mf_write. rewrite add64_small by lia.
    replace (Z.of_nat (length bs) + off)%Z with (off + Z.of_nat (length bs))%Z by lia.
    destruct (write_address_lemma cnt s o (off + Z.of_nat (length bs)) HC HO ltac:(lia)) as [[E N]|[s1 [nm [mp [f H]]]]].
    - rewrite E. exists s, o, 0%Z. split; [reflexivity|]. repeat (split; [first [assumption|apply files_le_refl|apply keeps_refl|reflexivity|intros; reflexivity]|]). left. auto.
    - cbn zeta in H. destruct H as [A1 [A2 [A3 [A4 [A5 [A6 [A7 [A8 [E [B1 [B2 [B3 [B4 [B5 B6]]]]]]]]]]]]]].
      rewrite E.
      destruct (write_tail cnt s o s1 nm mp f off bs _ Ho eq_refl A1 A2 A3 A4 A5 A6 A7 A8 B1 B2 B3 B4 B5 B6) as [s2 [C1 [C2 [C3 [C4 [C5 [C6 [C7 C8]]]]]]]].
      rewrite C1. eexists s2, _, _. split; [reflexivity|].
      repeat (split; [first [assumption|reflexivity|intros; reflexivity]|]). right. auto.
  Qed.

  Lemma payload_lemma cnt s o pw len off force :
    Core cnt s -> obj_ok s o -> (0 <= len /\ 0 <= off /\ len + off < 2 ^ 64)%Z ->
    (forall old, length (fst (pw_full pw old)) = length old /\ length (fst (pw_mod pw old)) = length old) ->
    exists s' o' k, mf_write_payload pw len off force s o = Some (s', o', k) /\ Core cnt s' /\ files_le s s' /\ keeps all s s' /\ s_objs s' = s_objs s /\ obj_ok s' o' /\
      (forall p nm, uses p nm o' = uses p nm o) /\ o_acc o' = o_acc o /\
      ((k = 0%Z /\ s' = s /\ o' = o /\ ~ (o_created o = true /\ o_acc o = WriteAcc /\ (0 < off + len <= h_max (o_hdr o))%Z)) \/
       (k = len /\ (o_created o = true /\ o_acc o = WriteAcc /\ (0 < off + len <= h_max (o_hdr o))%Z) /\
        exists mp f, deref s (o_info o) = Some (mp, f) /\
          wrote s s' o off (fst ((if negb (o_pinit o) || force then pw_full pw else pw_mod pw) (range (f_data f) off len))) /\
          o_pinit o' = o_pinit o || (negb (o_pinit o) || force) && snd ((if negb (o_pinit o) || force then pw_full pw else pw_mod pw) (range (f_data f) off len)))).
  Proof.
    intros HC HO [Hl [Ho Hs]] Hpw. unfold mf_write_payload. rewrite add64_small by lia.
    replace (len + off)%Z with (off + len)%Z by lia.
    destruct (write_address_lemma cnt s o (off + len) HC HO ltac:(lia)) as [[E N]|[s1 [nm [mp [f H]]]]].
    - rewrite E. exists s, o, 0%Z. split; [reflexivity|]. repeat (split; [first [assumption|apply files_le_refl|apply keeps_refl|reflexivity|intros; reflexivity]|]). left. auto.
    - cbn zeta in H. destruct H as [A1 [A2 [A3 [A4 [A5 [A6 [A7 [A8 [E [B1 [B2 [B3 [B4 [B5 B6]]]]]]]]]]]]]].
      rewrite E. unfold data_read. cbn [o_info o_hdr h_ihs]. rewrite (sync_deref _ _ _ _ _ _ B5).
      destruct (sync_facts _ _ _ _ _ _ _ B1 B5) as [S1 [S2 [S3 [S4 _]]]].
      match goal with |- context [if ?c then Some (range _ _ _) else _] => replace c with true end.
      2:{ symmetry. unfold within. rewrite A7, Z.eqb_refl, andb_true_r. apply andb_true_iff. split; apply Z.leb_le; lia. }
      cbn [f_data o_pinit]. set (w := if negb (o_pinit o) || force then pw_full pw else pw_mod pw).
      destruct (w (range (f_data f) off len)) as [new ok] eqn:Ew.
      assert (Hn : Z.of_nat (length new) = len).
      { assert (X : length (fst (w (range (f_data f) off len))) = Z.to_nat len).
        { unfold w. destruct (negb (o_pinit o) || force); rewrite (proj1 (Hpw _)) + rewrite (proj2 (Hpw _)); apply length_range. }
        rewrite Ew in X. cbn in X. lia. }
      destruct (write_tail cnt s o s1 nm mp f off new (off + len) Ho ltac:(lia) A1 A2 A3 A4 A5 A6 A7 A8 B1 B2 B3 B4 B5 B6) as [s2 [C1 [C2 [C3 [C4 [C5 [C6 [C7 C8]]]]]]]].
      cbn [o_info o_hdr] in C1. rewrite C1. eexists s2, _, _. split; [reflexivity|].
      split; [assumption|]. split; [assumption|]. split; [assumption|]. split; [assumption|]. split; [apply C8|].
      split; [intros; reflexivity|]. split; [reflexivity|]. right. split; [reflexivity|]. split; [auto|].
      exists mp, f. split; [exact A5|]. rewrite Ew. cbn. auto.
  Qed.

  (** ** Counting the users *)
  Definition ucnt (s : sys) (p nm : nat) : Z := Z.of_nat (length (users s p nm)).
  Definition Inv (s : sys) : Prop :=
    NoDup (keys (s_objs s)) /\ Core (ucnt s) s /\ forall n o, aget n (s_objs s) = Some o -> obj_ok s o.

  Definition b2z (b : bool) : Z := if b then 1%Z else 0%Z.
  Lemma filter_aset (P : nat * obj -> bool) l n o o' :
    NoDup (keys l) -> aget n l = Some o ->
    Z.of_nat (length (filter P (aset n o' l))) = (Z.of_nat (length (filter P l)) - b2z (P (n, o)) + b2z (P (n, o')))%Z.
  Proof.
    induction l as [|[k x] l IH]; intros Hnd; cbn [aget]; [discriminate|]. inversion Hnd as [|? ? Hni Hnd']; subst.
    cbn [aset]. destruct (eqb n k) eqn:E.
    - apply eqb_true in E; subst k. intros [= ->]. cbn [filter].
      destruct (P (n, o)), (P (n, o')); cbn [length b2z]; lia.
    - intros Hg. cbn [filter]. specialize (IH Hnd' Hg). destruct (P (k, x)); cbn [length]; lia.
  Qed.
  Lemma filter_aset_new (P : nat * obj -> bool) l n o' :
    aget n l = None ->
    Z.of_nat (length (filter P (aset n o' l))) = (Z.of_nat (length (filter P l)) + b2z (P (n, o')))%Z.
  Proof.
    induction l as [|[k x] l IH]; cbn [aget aset].
    - intros _. cbn. destruct (P (n, o')); reflexivity.
    - destruct (eqb n k) eqn:E; [discriminate|]. intros Hg. cbn [filter]. specialize (IH Hg). destruct (P (k, x)); cbn [length]; lia.
  Qed.

  Lemma in_users s p nm k x : NoDup (keys (s_objs s)) ->
    In (k, x) (users s p nm) <-> aget k (s_objs s) = Some x /\ uses p nm x = true.
  Proof.
    intros Hnd. unfold users. rewrite filter_In. cbn [snd]. split; intros [A B]; split; auto.
    - apply in_aget; assumption.
    - apply aget_in; assumption.
  Qed.
  Lemma uses_iff p nm o : uses p nm o = true <-> o_created o = true /\ o_pid o = p /\ o_name o = Some nm.
  Proof.
    unfold uses. rewrite !andb_true_iff, Nat.eqb_eq. split.
    - intros [[A B] C]. apply eqb_true in C. auto.
    - intros [A [B C]]. rewrite C, eqb_refl. auto.
  Qed.

  Lemma inv_put s s1 n o o' P :
    Inv s -> aget n (s_objs s) = Some o -> s_objs s1 = s_objs s ->
    Core (fun p nm => (ucnt s p nm - b2z (uses p nm o) + b2z (uses p nm o'))%Z) s1 ->
    files_le s s1 -> keeps P s s1 ->
    (forall k x nm, k <> n -> aget k (s_objs s) = Some x -> o_created x = true -> o_name x = Some nm -> P (o_pid x) nm) ->
    obj_ok s1 o' -> Inv (set_objs s1 (aset n o' (s_objs s1))).
  Proof.
    intros [H1 [H2 H3]] Hn Ho HC HF HK HP HO'. split; [|split].
    - cbn. apply nodup_aset. rewrite Ho. exact H1.
    - apply core_objs. eapply core_ext; [|exact HC]. intros p nm. unfold ucnt, users. cbn [set_objs s_objs]. rewrite Ho.
      rewrite (filter_aset _ _ _ _ o' H1 Hn). reflexivity.
    - intros k x. cbn [set_objs s_objs]. rewrite Ho, aget_aset. destruct (eqb k n) eqn:E.
      + intros [= <-]. exact HO'.
      + apply eqb_false in E. intros Hk. change (obj_ok s1 x). eapply obj_ok_keeps; eauto.
  Qed.

  Lemma users_cnt_one s n p nm :
    NoDup (keys (s_objs s)) -> (forall k x, In (k, x) (users s p nm) -> k = n) -> (ucnt s p nm <= 1)%Z.
  Proof.
    intros Hnd Hall. unfold ucnt.
    assert (Hk : NoDup (keys (users s p nm))) by (apply (nodup_map_filter fst); exact Hnd).
    destruct (users s p nm) as [|[a x] [|[b y] l]]; cbn; try lia.
    exfalso. inversion Hk as [|? ? Hni _]; subst. apply Hni. cbn.
    rewrite (Hall a x) by (left; reflexivity). rewrite (Hall b y) by (right; left; reflexivity). left. reflexivity.
  Qed.
  Lemma users_cnt_two s n m p nm x y :
    NoDup (keys (s_objs s)) -> n <> m -> In (n, x) (users s p nm) -> In (m, y) (users s p nm) -> (1 < ucnt s p nm)%Z.
  Proof.
    intros Hnd Hne H1 H2. unfold ucnt. destruct (users s p nm) as [|a [|b l]]; cbn in *; try lia; try tauto.
    destruct H1 as [H1|[]], H2 as [H2|[]]. congruence.
  Qed.

  (** Access of an object of the state. *)
  Definition acc_at (s : sys) (n : nat) : access := match aget n (s_objs s) with Some o => o_acc o | None => Closed end.

  Theorem step_inv s op : Inv s -> op_ok lenof s op ->
    exists s' r, m_step op s = Some (s', r) /\ Inv s' /\ forall n, acc_at s' n = window_step n (acc_at s n) (op, r).
  Proof.
    intros HI Hok. pose proof HI as [H1 [H2 H3]].
    assert (Hacc : forall s1 (o' : obj) k n, s_objs s1 = s_objs s ->
       acc_at (set_objs s1 (aset n o' (s_objs s1))) k = if Nat.eqb n k then o_acc o' else acc_at s k).
    { intros s1 o' k n E. unfold acc_at. cbn [set_objs s_objs]. rewrite E, aget_aset.
      destruct (Nat.eqb_spec n k) as [->|Hne]; [rewrite eqb_refl; reflexivity|].
      rewrite neq_eqb by congruence. reflexivity. }
    assert (Hat : forall n o, aget n (s_objs s) = Some o -> acc_at s n = o_acc o) by (intros n o E; unfold acc_at; rewrite E; reflexivity).
    destruct (aget (mop_obj op) (s_objs s)) as [o|] eqn:Eo.
    2:{ destruct op; cbn [m_step mop_obj] in *; rewrite Eo.
        all: try (exists s, MNone; split; [reflexivity|]; split; [exact HI|]; intros k; reflexivity).
        eexists _, MNone. split; [reflexivity|]. split.
        - split; [|split].
          + cbn. apply nodup_aset. exact H1.
          + apply core_objs. eapply core_ext; [|exact H2]. intros p nm. unfold ucnt, users. cbn [set_objs s_objs].
            rewrite filter_aset_new by exact Eo. cbn. lia.
          + intros k x. cbn [set_objs s_objs]. rewrite aget_aset. destruct (eqb k o) eqn:E.
            * intros [= <-]. unfold obj_ok. cbn. auto.
            * apply H3.
        - intros k. cbn [window_step]. unfold acc_at. cbn [set_objs s_objs]. rewrite aget_aset.
          destruct (eqb k o) eqn:E; [|reflexivity]. apply eqb_true in E; subst k. rewrite Eo. reflexivity. }
    pose proof (H3 _ _ Eo) as HO.
    destruct op as [n pid|n nm create len san mtx rec|n remove|n w rec|n w|n len off|n bs off|n pw len off force]; cbn [mop_obj] in Eo; cbn [m_step mop_obj];
      rewrite Eo.
    - exists s, MNone. split; [reflexivity|]. split; [exact HI|]. intros k. reflexivity.
    - destruct Hok as [-> [-> Hok]]. destruct (Hok _ Eo) as [Hc [Hcr Hrd]].
      destruct (create_lemma (ucnt s) s o nm create len san H2 HO Hc) as [s' [o' [b [E [Ep [Em [HF [HK [Hob [Hlk [HO' [Ht Hf]]]]]]]]]]]].
      { intros X. destruct (Hcr X) as [? [? _]]. auto. } { exact Hrd. }
      { intros X d m mp K1 K2 K3. destruct (Hcr X) as [_ [_ Hall]].
        destruct (c_db _ _ H2 _ _ _ K1) as [m' [mp' [f' [G1 [G2 [G3 [G4 [G5 [G6 [G7 G8]]]]]]]]]].
        assert (Hne : exists k x, In (k, x) (users s (o_pid o) nm)).
        { unfold ucnt in G8. destruct (users s (o_pid o) nm) as [|[k x] l]; [cbn in G8; lia|]. exists k, x. left. reflexivity. }
        destruct Hne as [k [x Hx]]. pose proof (Hall _ _ Hx) as Hmx. apply in_users in Hx; [|exact H1]. destruct Hx as [Hx Hu].
        apply uses_iff in Hu. destruct Hu as [U1 [U2 U3]]. pose proof (H3 _ _ Hx) as HOx. unfold obj_ok in HOx. rewrite U1 in HOx.
        destruct HOx as [nm2 [mp2 [f2 [A [B [C [D _]]]]]]]. assert (nm2 = nm) by congruence. subst nm2. rewrite U2 in C.
        destruct C as [d2 [m2 [C1 [[C2 _] [C5 [C6 C7]]]]]].
        assert (d2 = d) by congruence. subst d2. assert (m2 = m) by congruence. subst m2. assert (mp2 = mp) by congruence. subst mp2.
        apply D. exact Hmx. }
      rewrite E. cbn [put]. eexists _, (MBool b). split; [reflexivity|].
      assert (Hu0 : forall p x, uses p x o = false) by (intros p x; unfold uses; rewrite Hc; reflexivity).
      assert (Hac : o_acc o' = o_acc o).
      { unfold obj_ok in HO. rewrite Hc in HO. destruct HO as [_ [_ [-> _]]]. destruct b; [apply Ht; reflexivity|].
        destruct (Hf eq_refl) as [X _]. unfold obj_ok in HO'. rewrite X in HO'. apply HO'. }
      split.
      + eapply (inv_put s s' n o o' all); eauto; [|intros; exact I].
        destruct b.
        * destruct (Ht eq_refl) as [T1 [T2 [T3 T4]]]. eapply core_ext; [|exact T4]. intros p x. rewrite Hu0. unfold plus1, uses.
          rewrite T1, T2, Ep. cbn [andb b2z].
          rewrite (Nat.eqb_sym (o_pid o) p).
          destruct (Nat.eqb p (o_pid o)); cbn [andb b2z]; [|lia].
          destruct (Nat.eqb_spec x nm) as [->|Hne]; [rewrite eqb_refl|rewrite neq_eqb by congruence]; cbn [b2z]; lia.
        * destruct (Hf eq_refl) as [T1 T2]. eapply core_ext; [|exact T2]. intros p x. rewrite Hu0. unfold uses. rewrite T1. cbn. lia.
      + intros k. rewrite Hacc by exact Hob. cbn [window_step]. destruct (Nat.eqb_spec n k) as [<-|]; [|reflexivity].
        rewrite Hac. symmetry. apply Hat. exact Eo.
    - destruct (o_created o) eqn:Hc.
      + pose proof HO as HO0. unfold obj_ok in HO0. rewrite Hc in HO0. destruct HO0 as [nm [_ [_ [A _]]]].
        destruct (destroy_lemma (ucnt s) s o remove nm H2 HO Hc A) as [s' [E [HC [HF [HK [Hob _]]]]]].
        rewrite E. cbn [put]. eexists _, (MBool true). split; [reflexivity|]. split.
        * eapply (inv_put s s' n o); eauto.
          -- eapply core_ext; [|exact HC]. intros p x. unfold plus1, uses. rewrite Hc, A. cbn [o_created andb b2z].
             rewrite (Nat.eqb_sym (o_pid o) p). destruct (Nat.eqb p (o_pid o)); cbn [andb b2z]; [|lia].
             destruct (Nat.eqb_spec x nm) as [->|Hne]; [rewrite eqb_refl|rewrite neq_eqb by congruence]; cbn [b2z]; lia.
          -- intros k x nm' Hne Hk Hcx Hnx. destruct (eqb (o_pid x, nm') (o_pid o, nm)) eqn:Eq; [|left; apply eqb_false in Eq; exact Eq].
             apply eqb_true in Eq. injection Eq as Eq1 ->. right.
             apply (users_cnt_two s n k _ _ o x H1); [congruence| |]; apply in_users; auto; split; auto; apply uses_iff; auto.
          -- unfold obj_ok. cbn. auto.
        * intros k. rewrite Hacc by exact Hob. cbn [window_step o_acc]. reflexivity.
      + unfold mf_destroy. rewrite Hc. cbn [negb put]. eexists _, (MBool false). split; [reflexivity|]. split.
        * apply (inv_put s s n o o all HI Eo eq_refl); [|apply files_le_refl|apply keeps_refl|intros; exact I|exact HO].
          eapply core_ext; [|exact H2]. intros. cbn. lia.
        * intros k. rewrite Hacc by reflexivity. cbn [window_step]. destruct (Nat.eqb_spec n k) as [<-|]; [|reflexivity]. symmetry. apply Hat. exact Eo.
    - destruct Hok as [-> Hok]. destruct (Hok _ Eo) as [Hw Hg]. unfold mf_get.
      assert (Hno : mf_access false s o = Some (s, o, false) ->
                exists s' r, put n (match mf_access false s o with
                                  | None => None
                                  | Some (s1, o1, true) => Some (s1, set_acc o1 (acc_of w), true)
                                  | Some (s1, o1, false) => Some (s1, o1, false) end) = Some (s', r) /\ Inv s' /\
                  forall k, acc_at s' k = window_step k (acc_at s k) (MGet n w false, r)).
      { intros ->. cbn [put]. eexists _, _. split; [reflexivity|]. split.
        - apply (inv_put s s n o o all HI Eo eq_refl); [|apply files_le_refl|apply keeps_refl|intros; exact I|exact HO].
          eapply core_ext; [|exact H2]. intros. cbn. lia.
        - intros k. rewrite Hacc by reflexivity. cbn [window_step]. destruct (Nat.eqb_spec n k) as [<-|]; [|reflexivity]. symmetry. apply Hat. exact Eo. }
      destruct (o_created o) eqn:Hc.
      2:{ apply Hno. unfold mf_access. rewrite Hc. reflexivity. }
      pose proof HO as HO0. unfold obj_ok in HO0. rewrite Hc in HO0. destruct HO0 as [nm [mp0 [f0 [A [B [C _]]]]]].
      destruct (is_locked nm s) eqn:Hl.
      { apply Hno. unfold mf_access. destruct C as [d [m [_ [_ [C5 _]]]]]. rewrite Hc, C5, B, A, Hl. reflexivity. }
      destruct (access_lemma (ucnt s) s o nm H2 HO Hc A) as [s' [o' [mp [f [E [HC [HF [HK [Hob [Hfi [P1 [P2 [P3 [P4 [P5 [P6 [P7 [P8 [P9 [P10 [P11 [P12 [P13 [P14 P15]]]]]]]]]]]]]]]]]]]]]]]].
      { intros Hlt. destruct (Hg _ eq_refl A Hlt) as [G1 G2]. split; [exact G1|].
        pose proof (users_cnt_one s n _ _ H1 G2). destruct (sync_facts _ _ _ _ _ _ _ H2 C) as [_ [_ [_ [_ [_ S6]]]]]. lia. }
      { exact Hl. }
      rewrite E. cbn [put]. eexists _, _. split; [reflexivity|]. split.
      + eapply (inv_put s s' n o); eauto.
        * eapply core_ext; [|exact HC]. intros p x. unfold uses, set_acc. cbn [o_created o_pid o_name]. rewrite P1, P2, P3, Hc, A. cbn. lia.
        * intros k x nm' Hne Hk Hcx Hnx. cbn beta. destruct (eqb (o_pid x, nm') (o_pid o, nm)) eqn:Eq; [|left; apply eqb_false in Eq; exact Eq].
          apply eqb_true in Eq. injection Eq as Eq1 ->. right.
          destruct (Z.ltb_spec (i_size (o_info o)) (ihdr_bytes + lenof nm)) as [Hlt|]; [|lia].
          destruct (Hg _ eq_refl A Hlt) as [_ G2]. exfalso. apply Hne. apply (G2 k x). apply in_users; [exact H1|]. split; [exact Hk|]. apply uses_iff. auto.
        * unfold obj_ok, set_acc. cbn [o_created o_pid o_name o_mtx o_info o_mode o_hdr o_acc]. rewrite P1, P2.
          exists nm, mp, f. rewrite P5. repeat (split; [assumption|]). split; [auto|]. destruct w; [auto|discriminate].
      + intros k. rewrite Hacc by exact Hob. cbn [window_step set_acc o_acc]. reflexivity.
    - unfold mf_release.
      assert (HK : forall s1 a, s1 = mtx_destroy o s \/ s1 = s -> a = Closed \/ a = o_acc o ->
                Inv (set_objs s1 (aset n (set_acc o a) (s_objs s1)))).
      { intros s1 a Hs1 Ha.
        assert (Hd : s_db s1 = s_db s /\ s_maps s1 = s_maps s /\ s_files s1 = s_files s /\ s_objs s1 = s_objs s /\ Core (ucnt s) s1).
        { destruct Hs1 as [-> | ->]; [|auto]. unfold mtx_destroy. destruct (o_mtx o) as [k|]; [|auto].
          repeat (split; [reflexivity|]). apply core_locks. exact H2. }
        destruct Hd as [D1 [D2 [D3 [D4 D5]]]].
        eapply (inv_put s s1 n o (set_acc o a) all); eauto.
        - eapply core_ext; [|exact D5]. intros p nm. cbn beta. change (uses p nm (set_acc o a)) with (uses p nm o). lia.
        - apply files_le_same. exact D3.
        - apply keeps_same; assumption.
        - assert (X : obj_ok s1 o).
          { apply (obj_ok_keeps all s s1 o); [apply keeps_same; assumption|apply files_le_same; assumption|intros; exact I|exact HO]. }
          destruct Ha as [-> | ->].
          + unfold obj_ok in *. cbn [set_acc o_created o_pid o_name o_mtx o_info o_mode o_hdr o_acc]. destruct (o_created o).
            * destruct X as [nm [mp [f [A [B [C [D [E0 [F G]]]]]]]]]. exists nm, mp, f. repeat (split; [assumption|]). split; [tauto|discriminate].
            * tauto.
          + replace (set_acc o (o_acc o)) with o by (destruct o; reflexivity). exact X. }
      assert (Ho : set_acc o (o_acc o) = o) by (destruct o; reflexivity).
      destruct (o_created o); cbn [negb].
      2:{ cbn [put]. eexists _, _. split; [reflexivity|]. split; [rewrite <- Ho; apply HK; auto|].
          intros k. rewrite Hacc by reflexivity. cbn [window_step]. destruct (Nat.eqb_spec n k) as [<-|]; [|reflexivity]. symmetry. apply Hat. exact Eo. }
      destruct (acc_eqb (o_acc o) (acc_of w)); cbn [negb put].
      + eexists _, _. split; [reflexivity|]. split; [apply HK; auto|]. intros k.
        rewrite Hacc by (unfold mtx_destroy; destruct (o_mtx o); reflexivity). reflexivity.
      + eexists _, _. split; [reflexivity|]. split; [rewrite <- Ho; apply HK; auto|].
        intros k. rewrite Hacc by reflexivity. cbn [window_step]. destruct (Nat.eqb_spec n k) as [<-|]; [|reflexivity]. symmetry. apply Hat. exact Eo.
    - destruct (read_lemma (ucnt s) s o len off H2 HO Hok) as [r [E _]]. rewrite E. eexists _, _. split; [reflexivity|]. split; [exact HI|]. reflexivity.
    - destruct (write_lemma (ucnt s) s o bs off H2 HO Hok) as [s' [o' [k [E [HC [HF [HK [Hob [HO' [Hu [Ha _]]]]]]]]]]].
      rewrite E. cbn [putz]. eexists _, _. split; [reflexivity|]. split.
      + eapply (inv_put s s' n o o' all); eauto; [|intros; exact I]. eapply core_ext; [|exact HC]. intros p nm. cbn. rewrite Hu. lia.
      + intros j. rewrite Hacc by exact Hob. cbn [window_step]. destruct (Nat.eqb_spec n j) as [<-|]; [|reflexivity]. rewrite Ha. symmetry. apply Hat. exact Eo.
    - destruct Hok as [Hr Hpw]. destruct (payload_lemma (ucnt s) s o pw len off force H2 HO Hr Hpw) as [s' [o' [k [E [HC [HF [HK [Hob [HO' [Hu [Ha _]]]]]]]]]]].
      rewrite E. cbn [putz]. eexists _, _. split; [reflexivity|]. split.
      + eapply (inv_put s s' n o o' all); eauto; [|intros; exact I]. eapply core_ext; [|exact HC]. intros p nm. cbn. rewrite Hu. lia.
      + intros j. rewrite Hacc by exact Hob. cbn [window_step]. destruct (Nat.eqb_spec n j) as [<-|]; [|reflexivity]. rewrite Ha. symmetry. apply Hat. exact Eo.
  Qed.

  Lemma inv_init : Inv sys_init.
  Proof.
    split; [constructor|]. split; [|discriminate].
    constructor; cbn; try discriminate; try (intros; discriminate). intros. reflexivity.
  Qed.

  Theorem run_inv ops : forall s, Inv s -> run_ok lenof ops s ->
    exists s' rs, m_run ops s = Some (s', rs) /\ Inv s' /\ length rs = length ops /\
      forall n, acc_at s' n = fold_left (window_step n) (combine ops rs) (acc_at s n).
  Proof.
    induction ops as [|op ops IH]; intros s HI Hok; cbn [m_run].
    - exists s, []. split; [reflexivity|]. split; [exact HI|]. split; reflexivity.
    - destruct Hok as [Ho Hr]. destruct (step_inv s op HI Ho) as [s1 [r [E [HI1 Hw]]]]. rewrite E in *.
      destruct (IH _ HI1 Hr) as [s2 [rs [E2 [HI2 [Hl Hw2]]]]]. rewrite E2. exists s2, (r :: rs).
      split; [reflexivity|]. split; [exact HI2|]. split; [cbn; congruence|].
      intros n. cbn [combine fold_left]. rewrite Hw2, Hw. reflexivity.
  Qed.

  Lemma reach ops s rs : run_ok lenof ops sys_init -> m_run ops sys_init = Some (s, rs) ->
    Inv s /\ forall n, acc_at s n = window n (combine ops rs).
  Proof.
    intros Hok E. destruct (run_inv ops _ inv_init Hok) as [s' [rs' [E' [HI [_ Hw]]]]].
    rewrite E in E'. injection E' as <- <-. split; [exact HI|]. intros n. rewrite Hw. reflexivity.
  Qed.

  Lemma no_fault_lemma ops : run_ok lenof ops sys_init -> m_run ops sys_init <> None.
  Proof. intros Hok. destruct (run_inv ops _ inv_init Hok) as [s' [rs' [E' _]]]. rewrite E'. discriminate. Qed.

  Lemma acc_created s n o : Inv s -> aget n (s_objs s) = Some o -> o_acc o <> Closed -> o_created o = true.
  Proof.
    intros [_ [_ H]] Hn Ha. pose proof (H _ _ Hn) as HO. unfold obj_ok in HO. destruct (o_created o); [reflexivity|]. tauto.
  Qed.

  Lemma read_step_lemma ops s rs n o len off :
    run_ok lenof ops sys_init -> m_run ops sys_init = Some (s, rs) -> aget n (s_objs s) = Some o ->
    op_ok lenof s (MRead n len off) ->
    exists x, m_step (MRead n len off) s = Some (s, MBytes x) /\
      (x <> None <-> window n (combine ops rs) = ReadAcc /\ (0 < len + off <= cur_size s n)%Z) /\
      (forall bs, x = Some bs -> exists f, file_of s n = Some f /\ bs = range (f_data f) off len /\ (ihdr_bytes + cur_size s n <= f_size f)%Z).
  Proof.
    intros Hok E Hn Ho. destruct (reach _ _ _ Hok E) as [HI Hw]. pose proof HI as [H1 [H2 H3]].
    destruct (read_lemma _ s o len off H2 (H3 _ _ Hn) Ho) as [x [Er [Hiff Hbs]]].
    exists x. cbn [m_step mop_obj]. rewrite Hn, Er. split; [reflexivity|].
    assert (Ha : window n (combine ops rs) = o_acc o) by (rewrite <- Hw; unfold acc_at; rewrite Hn; reflexivity).
    unfold cur_size, file_of. rewrite Hn, Ha. split.
    - rewrite Hiff. split; [tauto|]. intros [A B]. split; [|auto]. apply (acc_created s n o HI Hn). congruence.
    - intros bs Hx. destruct (Hbs _ Hx) as [mp [f [D ->]]]. exists f. rewrite D. split; [reflexivity|]. split; [reflexivity|].
      assert (Hx' : x <> None) by congruence. apply Hiff in Hx'. destruct Hx' as [X1 [X2 X3]].
      pose proof (H3 _ _ Hn) as HO. unfold obj_ok in HO. rewrite X1 in HO. destruct HO as [nm [mp' [f' [A [B [C [D' [E' [F G]]]]]]]]].
      rewrite (sync_deref _ _ _ _ _ _ C) in D. injection D as -> ->.
      destruct (F ltac:(congruence)) as [F1 F2]. destruct (sync_facts _ _ _ _ _ _ _ H2 C) as [S1 [S2 [S3 [S4 _]]]].
      destruct E' as [[[E1 E2]|E1] [E3 E4]]; lia.
  Qed.

  Lemma map_nth_seq (bs : list Z) d : map (fun k => nth k bs d) (seq 0 (length bs)) = bs.
  Proof.
    induction bs as [|b bs IH]; [reflexivity|]. cbn [length seq map nth]. f_equal.
    rewrite <- seq_shift, map_map. exact IH.
  Qed.
  Lemma range_overwrite_same d off bs : range (overwrite d off bs) off (Z.of_nat (length bs)) = bs.
  Proof.
    unfold range. rewrite Nat2Z.id. rewrite <- (map_nth_seq bs 0%Z) at 2. apply map_ext_in. intros k Hk. apply in_seq in Hk.
    unfold overwrite.
    replace (Z.leb off (off + Z.of_nat k)) with true by (symmetry; apply Z.leb_le; lia).
    replace (Z.ltb (off + Z.of_nat k) (off + Z.of_nat (length bs))) with true by (symmetry; apply Z.ltb_lt; lia).
    cbn [andb]. f_equal. lia.
  Qed.
  Lemma overwrite_other d off bs k : (k < off \/ off + Z.of_nat (length bs) <= k)%Z -> overwrite d off bs k = d k.
  Proof.
    intros H. unfold overwrite. destruct (Z.leb_spec off k), (Z.ltb_spec k (off + Z.of_nat (length bs))); cbn; try reflexivity. lia.
  Qed.

  (** What a granted write does. *)
  Lemma write_step_lemma ops s rs n o bs off :
    run_ok lenof ops sys_init -> m_run ops sys_init = Some (s, rs) -> aget n (s_objs s) = Some o ->
    op_ok lenof s (MWrite n bs off) ->
    (window n (combine ops rs) = WriteAcc /\ (0 < off + Z.of_nat (length bs) <= max_size s n)%Z ->
       exists s' fd f f', m_step (MWrite n bs off) s = Some (s', MSize (Z.of_nat (length bs))) /\
         fd_of s n = Some fd /\ file_of s n = Some f /\ fd_of s' n = Some fd /\ file_of s' n = Some f' /\
         range (f_data f') off (Z.of_nat (length bs)) = bs /\
         (forall k, (k < off \/ off + Z.of_nat (length bs) <= k)%Z -> f_data f' k = f_data f k) /\
         h_cur (f_hdr f') = (off + Z.of_nat (length bs))%Z /\ h_max (f_hdr f') = h_max (f_hdr f) /\ f_size f' = f_size f /\
         (forall d, d <> fd -> aget d (s_files s') = aget d (s_files s))) /\
    (~ (window n (combine ops rs) = WriteAcc /\ (0 < off + Z.of_nat (length bs) <= max_size s n)%Z) ->
       m_step (MWrite n bs off) s = Some (set_objs s (aset n o (s_objs s)), MSize 0)).
  Proof.
    intros Hok E Hn Ho. destruct (reach _ _ _ Hok E) as [HI Hw]. pose proof HI as [H1 [H2 H3]].
    destruct (write_lemma _ s o bs off H2 (H3 _ _ Hn) Ho) as [s' [o' [k [Er [HC [HF [HK [Hob [HO' [Hu [Ha Hcase]]]]]]]]]]].
    assert (Hac : window n (combine ops rs) = o_acc o) by (rewrite <- Hw; unfold acc_at; rewrite Hn; reflexivity).
    cbn [m_step mop_obj]. rewrite Hn, Er. cbn [putz]. unfold max_size. rewrite Hn, Hac. split.
    - intros [A1 A2]. destruct Hcase as [[_ [_ [_ N]]]|[-> [Hg [mp [f [D [Hfi R]]]]]]].
      + exfalso. apply N. split; [|auto]. apply (acc_created s n o HI Hn). congruence.
      + destruct R as [R1 [R2 [R3 [R4 [R5 R6]]]]].
        assert (Hd' : deref s' (o_info o') = Some (mp, File (f_name f) (f_size f) (IHdr (h_ihs (f_hdr f)) (off + Z.of_nat (length bs)) (h_max (f_hdr f))) (overwrite (f_data f) off bs))).
        { destruct (deref_eq _ _ _ _ D) as [m [D1 [D2 D3]]]. apply (deref_some _ _ m).
          - assert (X : o_info o' = o_info o).
            { unfold mf_write in Er. unfold mf_write_address in Er.
              repeat match type of Er with context [if ?c then _ else _] => destruct c; try (inversion Er; reflexivity) end.
              destruct (hdr_read s (o_info o)); [|discriminate]. destruct (hdr_write _ _ _) as [s3|]; [|discriminate].
              destruct (data_write _ _ _ _ _); [|discriminate]. inversion Er; reflexivity. }
            rewrite X. exact D1.
          - rewrite R2. exact D2.
          - rewrite Hfi. apply aget_aset_same. }
        eexists _, (mp_file mp), f, _. split; [reflexivity|]. unfold fd_of, file_of. cbn [set_objs s_objs s_files]. rewrite aget_aset_same, Hn, D.
        change (deref (set_objs s' (aset n o' (s_objs s'))) (o_info o')) with (deref s' (o_info o')). rewrite Hd'.
        split; [reflexivity|]. split; [reflexivity|]. split; [reflexivity|]. split; [reflexivity|].
        cbn [f_data f_hdr h_cur h_max f_size]. split; [apply range_overwrite_same|]. split; [intros; apply overwrite_other; assumption|].
        split; [reflexivity|]. split; [reflexivity|]. split; [reflexivity|].
        intros d Hd. rewrite Hfi, aget_aset_other by exact Hd. reflexivity.
    - intros N. destruct Hcase as [[-> [-> [-> _]]]|[_ [Hg _]]]; [reflexivity|]. exfalso. apply N. tauto.
  Qed.

  (** ** What is written in one process is read in another *)
  Lemma round_trip_lemma ops s rs w r fd bs off :
    run_ok lenof ops sys_init -> m_run ops sys_init = Some (s, rs) ->
    w <> r -> fd_of s w = Some fd -> fd_of s r = Some fd -> header_seen s r ->
    (exists o, aget r (s_objs s) = Some o /\ o_created o = true) ->
    window w (combine ops rs) = WriteAcc -> (0 < off + Z.of_nat (length bs) <= max_size s w)%Z ->
    run_ok lenof [MWrite w bs off; MRelease w true; MGet r false false; MRead r (Z.of_nat (length bs)) off] s ->
    exists s', m_run [MWrite w bs off; MRelease w true; MGet r false false; MRead r (Z.of_nat (length bs)) off] s =
      Some (s', [MSize (Z.of_nat (length bs)); MBool true; MBool true; MBytes (Some bs)]).
  Proof.
    intros Hok E Hne Hfw Hfr Hseen [ro [Hr Hrc]] Hwin Hlen Hrun.
    destruct (reach _ _ _ Hok E) as [HI Hw]. pose proof HI as [H1 [H2 H3]].
    destruct (aget w (s_objs s)) as [wo|] eqn:Hwo; [|unfold fd_of in Hfw; rewrite Hwo in Hfw; discriminate].
    assert (Hac : o_acc wo = WriteAcc) by (rewrite <- Hwin, <- Hw; unfold acc_at; rewrite Hwo; reflexivity).
    assert (Hwc : o_created wo = true) by (apply (acc_created s w wo HI Hwo); congruence).
    unfold max_size in Hlen. rewrite Hwo in Hlen.
    cbn [run_ok] in Hrun. destruct Hrun as [Ho1 Hrun].
    destruct (step_inv s _ HI Ho1) as [s1 [r1 [E1 [HI1 Hw1]]]].
    destruct (write_lemma _ s wo bs off H2 (H3 _ _ Hwo) Ho1) as [s1' [wo' [k [Er [HC [HF [HK [Hob [HO' [Hu [Ha Hcase]]]]]]]]]]].
    destruct Hcase as [[_ [_ [_ N]]]|[-> [Hg [mp [f [D [Hfi R]]]]]]]; [exfalso; apply N; auto|].
    pose proof E1 as E1'. cbn [m_step mop_obj] in E1'. rewrite Hwo, Er in E1'. cbn [putz] in E1'. injection E1' as <- <-.
    rewrite E1 in Hrun. cbn [m_run]. rewrite E1. set (s1 := set_objs s1' (aset w wo' (s_objs s1'))) in *.
    destruct R as [R1 [R2 [R3 [R4 [R5 R6]]]]].
    set (f1 := File (f_name f) (f_size f) (IHdr (h_ihs (f_hdr f)) (off + Z.of_nat (length bs)) (h_max (f_hdr f))) (overwrite (f_data f) off bs)) in *.
    (* the names *)
    assert (Hfd : mp_file mp = fd) by (unfold fd_of in Hfw; rewrite Hwo, D in Hfw; congruence). subst fd.
    pose proof (H3 _ _ Hwo) as HOw. unfold obj_ok in HOw. rewrite Hwc in HOw. destruct HOw as [nm [mpw [fw [A [B [C _]]]]]].
    rewrite (sync_deref _ _ _ _ _ _ C) in D. injection D as -> ->.
    destruct (sync_facts _ _ _ _ _ _ _ H2 C) as [S1 _].
    pose proof (H3 _ _ Hr) as HOr. unfold obj_ok in HOr. rewrite Hrc in HOr. destruct HOr as [nmr [mpr [fr [Ar [Br [Cr _]]]]]].
    unfold fd_of in Hfr. rewrite Hr, (sync_deref _ _ _ _ _ _ Cr) in Hfr. injection Hfr as Hfr.
    destruct (sync_facts _ _ _ _ _ _ _ H2 Cr) as [S1r _].
    assert (fr = f). { destruct C as [? [? [_ [_ [_ [_ C7]]]]]], Cr as [? [? [_ [_ [_ [_ C7r]]]]]]. congruence. } subst fr.
    assert (Hnn : nmr = nm) by congruence. rewrite Hnn in *. clear Hnn.
    (* release *)
    destruct Hrun as [Ho2 Hrun]. destruct (step_inv s1 _ HI1 Ho2) as [s2 [r2 [E2 [HI2 Hw2]]]].
    assert (Hwo1 : aget w (s_objs s1) = Some wo') by (cbn; apply aget_aset_same).
    assert (Hu' : o_created wo' = true /\ o_name wo' = Some nm).
    { assert (X : uses (o_pid wo) nm wo' = true) by (rewrite Hu; apply uses_iff; auto). apply uses_iff in X. tauto. }
    destruct Hu' as [Hc' Hn'].
    assert (Hm' : o_mtx wo' = Some nm).
    { unfold obj_ok in HO'. rewrite Hc' in HO'. destruct HO' as [z [_ [_ [Z1 [Z2 _]]]]]. congruence. }
    pose proof E2 as E2'. cbn [m_step mop_obj] in E2'. rewrite Hwo1 in E2'. unfold mf_release in E2'. rewrite Hc', Ha, Hac in E2'. cbn [negb acc_eqb acc_of put] in E2'.
    unfold mtx_destroy in E2'. rewrite Hm' in E2'. injection E2' as <- <-.
    rewrite E2 in *. 
    match goal with |- context [m_step (MGet r false false) ?x] => set (s2 := x) in * end.
    (* get *)
    destruct Hrun as [Ho3 Hrun]. destruct (step_inv s2 _ HI2 Ho3) as [s3 [r3 [E3 [HI3 Hw3]]]].
    assert (Hr2 : aget r (s_objs s2) = Some ro).
    { cbn [s2 set_objs s_objs unlock set_locks s1]. rewrite !aget_aset, !neq_eqb by congruence. rewrite R5. exact Hr. }
    pose proof HI2 as [I1 [I2 I3]].
    assert (Hl2 : is_locked nm s2 = false).
    { unfold is_locked, s2. cbn [set_objs unlock set_locks s_locks]. clear.
      induction (s_locks s1) as [|a l IH]; cbn; [reflexivity|]. destruct (Nat.eqb_spec a nm) as [->|Hne]; cbn; [exact IH|].
      rewrite IH. rewrite (proj2 (Nat.eqb_neq nm a)) by congruence. reflexivity. }
    destruct Ho3 as [_ Ho3]. destruct (Ho3 _ Hr2) as [_ Hg3].
    pose proof (I3 _ _ Hr2) as HO2r.
    destruct (access_lemma (ucnt s2) s2 ro nm I2 HO2r Hrc Ar) as [s3' [ro' [mp3 [f3 [Ea [HC3 [HF3 [HK3 [Hob3 [Hfi3 [P1 [P2 [P3 [P4 [P5 [P6 [P7 [P8 [P9 [P10 [P11 [P12 [P13 [P14 P15]]]]]]]]]]]]]]]]]]]]]]]].
    { intros Hlt. destruct (Hg3 _ Hrc Ar Hlt) as [G1 G2]. split; [exact G1|].
      pose proof (users_cnt_one s2 r _ _ I1 G2).
      unfold obj_ok in HO2r. rewrite Hrc in HO2r. destruct HO2r as [z [zm [zf [Z1 [Z2 [Z3 _]]]]]]. assert (z = nm) by congruence. subst z.
      destruct (sync_facts _ _ _ _ _ _ _ I2 Z3) as [_ [_ [_ [_ [_ S6]]]]]. lia. }
    { exact Hl2. }
    pose proof E3 as E3'. cbn [m_step mop_obj] in E3'. rewrite Hr2 in E3'. unfold mf_get in E3'. rewrite Ea in E3'. cbn [put acc_of] in E3'. injection E3' as <- <-.
    rewrite E3 in *. match goal with |- context [m_step (MRead r _ off) ?x] => set (s3 := x) in * end.
    (* read *)
    destruct Hrun as [Ho4 _]. pose proof HI3 as [J1 [J2 J3]].
    assert (Hr3 : aget r (s_objs s3) = Some (set_acc ro' ReadAcc)) by (cbn; apply aget_aset_same).
    destruct (read_lemma _ s3 _ _ off J2 (J3 _ _ Hr3) Ho4) as [x [Ex [Hiff Hbs]]].
    cbn [m_step mop_obj]. rewrite Hr3, Ex. eexists. 
    (* the file of the reader *)
    assert (Hf3 : f3 = f1 /\ mp_file mp3 = mp_file mpr).
    { destruct P9 as [d [m [Q1 [[Q2 [Q3 Q4]] [Q5 [Q6 Q7]]]]]].
      assert (Hmf : mp_file mp3 = mp_file mpr).
      { destruct (c_db _ _ HC3 _ _ _ Q1) as [m' [mp' [f' [V1 [V2 [V3 [V4 [V5 [V6 [V7 V8]]]]]]]]]].
        assert (mp' = mp3) by congruence. subst mp'.
        assert (X : i_fd (o_info ro') = i_fd (o_info ro)).
        { clear - Ea. unfold mf_access in Ea. destruct (o_created ro); [|discriminate]. cbn [negb] in Ea.
          destruct (i_map (o_info ro)) eqn:Em; [|discriminate]. destruct (o_mtx ro); [|discriminate]. destruct (o_name ro); [|discriminate].
          destruct (is_locked n0 s2); [discriminate|]. rewrite andb_false_r in Ea.
          destruct (hdr_read _ _) as [fh|]; [|discriminate].
          set (h := if Z.eqb (h_ihs (o_hdr ro)) 0 then o_hdr ro else fh) in *.
          destruct (Z.ltb (i_size (o_info ro)) (h_ihs h + h_max h)).
          - unfold db_check_size, os_check_size in Ea. rewrite Em in Ea. destruct (i_fd (o_info ro)) eqn:Ef.
            + destruct (Z.ltb _ _) eqn:?.
              * destruct (os_unmap _ _); [|discriminate]. cbn [os_map] in Ea. unfold os_map in Ea.
                destruct (Z.ltb _ (h_ihs h + h_max h)) in Ea; [discriminate|]. injection Ea as <- <-. cbn. reflexivity.
              * destruct (Z.ltb _ (h_ihs h + h_max h)) in Ea; [discriminate|]. injection Ea as <- <-. cbn. exact Ef.
            + destruct (Z.ltb _ (h_ihs h + h_max h)) in Ea; [discriminate|]. injection Ea as <- <-. cbn. exact Ef.
          - destruct (Z.ltb _ (h_ihs h + h_max h)) in Ea; [discriminate|]. injection Ea as <- <-. reflexivity. }
        destruct Cr as [dr [mr [W1 [[W2 [W3 W4]] [W5 [W6 W7]]]]]].
        destruct (c_db _ _ H2 _ _ _ W1) as [m'' [mp'' [f'' [Y1 [Y2 [Y3 _]]]]]]. congruence. }
      split; [|exact Hmf]. rewrite Hfi3 in Q7. cbn [s2 set_objs unlock set_locks s1 s_files] in Q7.
      rewrite Hfi, Hmf, Hfr, aget_aset_same in Q7. congruence. }
    destruct Hf3 as [-> Hmf].
    assert (Hx : x <> None).
    { apply Hiff. cbn [set_acc o_created o_acc o_hdr]. split; [exact P2|]. split; [reflexivity|]. rewrite P14.
      destruct (Z.eqb_spec (h_ihs (o_hdr ro)) 0) as [Hz|_]; [exfalso; exact (Hseen _ Hr Hz)|]. unfold f1. cbn. lia. }
    destruct x as [bs'|]; [|congruence]. destruct (Hbs _ eq_refl) as [mp4 [f4 [D4 ->]]].
    cbn [set_acc o_info] in D4. change (deref s3 (o_info ro')) with (deref s3' (o_info ro')) in D4.
    rewrite (sync_deref _ _ _ _ _ _ P9) in D4. injection D4 as <- <-.
    unfold f1. cbn [f_data]. rewrite range_overwrite_same. reflexivity.
  Qed.

  (** ** Exclusive access *)
  Definition LockInv (s : sys) : Prop :=
    (forall n nm, holds s n nm -> is_locked nm s = true) /\
    (forall n m nm, holds s n nm -> holds s m nm -> n = m) /\
    (forall nm, is_locked nm s = true -> exists n, holds s n nm).

  Lemma is_locked_unlock a b s : is_locked a (unlock b s) = negb (Nat.eqb a b) && is_locked a s.
  Proof.
    unfold is_locked, unlock. cbn [set_locks s_locks]. induction (s_locks s) as [|x l IH]; cbn; [rewrite andb_false_r; reflexivity|].
    destruct (Nat.eqb_spec x b) as [->|Hne]; cbn.
    - rewrite IH. destruct (Nat.eqb_spec a b) as [->|]; cbn; [reflexivity|]. reflexivity.
    - rewrite IH. destruct (Nat.eqb_spec a b) as [->|]; cbn; [|reflexivity].
      rewrite (proj2 (Nat.eqb_neq b x)) by congruence. reflexivity.
  Qed.

  Lemma holds_put s1 n o' k nm objs :
    holds (set_objs s1 (aset n o' objs)) k nm <->
    (k = n /\ o_name o' = Some nm /\ o_acc o' <> Closed) \/ (k <> n /\ exists o, aget k objs = Some o /\ o_name o = Some nm /\ o_acc o <> Closed).
  Proof.
    unfold holds. cbn [set_objs s_objs]. rewrite aget_aset. destruct (eqb k n) eqn:E.
    - apply eqb_true in E. split; [intros [o [[= <-] H]]; left; auto|]. intros [[_ H]|[H _]]; [exists o'; auto|tauto].
    - apply eqb_false in E. split; [intros H; right; auto|]. intros [[H _]|[_ H]]; [tauto|exact H].
  Qed.

  (** Steps that change neither locks nor what the object holds. *)
  Lemma lock_same s s1 n o o' :
    LockInv s -> aget n (s_objs s) = Some o -> s_objs s1 = s_objs s -> s_locks s1 = s_locks s ->
    (forall nm, o_name o' = Some nm /\ o_acc o' <> Closed <-> o_name o = Some nm /\ o_acc o <> Closed) ->
    LockInv (set_objs s1 (aset n o' (s_objs s1))).
  Proof.
    intros [L1 [L2 L3]] Hn Ho Hl Hsame.
    assert (HH : forall k nm, holds (set_objs s1 (aset n o' (s_objs s1))) k nm <-> holds s k nm).
    { intros k nm. rewrite holds_put, Ho. split.
      - intros [[-> H]|[_ H]]; [|exact H]. exists o. apply Hsame in H. auto.
      - intros [x [X1 X2]]. destruct (Nat.eq_dec k n) as [->|Hne]; [left; split; [reflexivity|]; apply Hsame; congruence|].
        right. split; [exact Hne|]. exists x. auto. }
    assert (HL : forall nm, is_locked nm (set_objs s1 (aset n o' (s_objs s1))) = is_locked nm s) by (intros; unfold is_locked; cbn; rewrite Hl; reflexivity).
    split; [|split].
    - intros k nm H. rewrite HL. apply HH in H. eauto.
    - intros a b nm Ha Hb. apply HH in Ha, Hb. eauto.
    - intros nm H. rewrite HL in H. destruct (L3 _ H) as [k Hk]. exists k. apply HH. exact Hk.
  Qed.

  (** Giving up. *)
  Lemma lock_drop s s1 n o o' nm0 :
    LockInv s -> aget n (s_objs s) = Some o -> s_objs s1 = s_objs s -> s_locks s1 = s_locks (unlock nm0 s) ->
    (forall m, holds s m nm0 -> m = n) -> (forall nm, holds s n nm -> nm = nm0) -> o_acc o' = Closed ->
    LockInv (set_objs s1 (aset n o' (s_objs s1))).
  Proof.
    intros [L1 [L2 L3]] Hn Ho Hl H1 H2 Ha.
    assert (HH : forall k nm, holds (set_objs s1 (aset n o' (s_objs s1))) k nm <-> k <> n /\ holds s k nm).
    { intros k nm. rewrite holds_put, Ho. split.
      - intros [[-> [_ H]]|H]; [congruence|exact H].
      - intros H. right. exact H. }
    assert (HL : forall nm, is_locked nm (set_objs s1 (aset n o' (s_objs s1))) = negb (Nat.eqb nm nm0) && is_locked nm s).
    { intros. rewrite <- is_locked_unlock. unfold is_locked. cbn [set_objs s_locks]. rewrite Hl. reflexivity. }
    split; [|split].
    - intros k nm H. rewrite HL. apply HH in H. destruct H as [K1 K2]. rewrite (L1 _ _ K2), andb_true_r.
      destruct (Nat.eqb_spec nm nm0) as [->|]; [|reflexivity]. exfalso. apply K1. auto.
    - intros a b nm Hx Hy. apply HH in Hx, Hy. destruct Hx, Hy. eauto.
    - intros nm H. rewrite HL in H. apply andb_true_iff in H. destruct H as [K1 K2]. destruct (L3 _ K2) as [k Hk]. exists k. apply HH.
      split; [|exact Hk]. intros ->. apply H2 in Hk. subst. rewrite Nat.eqb_refl in K1. discriminate.
  Qed.

  Theorem step_lock s op s' r : Inv s -> LockInv s -> op_ok lenof s op -> destroy_ok s op -> m_step op s = Some (s', r) -> LockInv s'.
  Proof.
    intros HI HL Hok Hd E. pose proof HI as [H1 [H2 H3]]. pose proof HL as [L1 [L2 L3]].
    destruct (aget (mop_obj op) (s_objs s)) as [o|] eqn:Eo.
    2:{ destruct op; cbn [m_step mop_obj] in *; rewrite Eo in E; injection E as <- <-; try exact HL.
        assert (HH : forall k nm, holds (set_objs s (aset o (obj_new pid) (s_objs s))) k nm <-> holds s k nm).
        { intros k nm. rewrite holds_put. cbn. split.
          - intros [[_ [? _]]|[_ H]]; [discriminate|exact H].
          - intros [x [X1 X2]]. right. split; [congruence|exists x; auto]. }
        split; [|split].
        - intros k nm H. apply HH in H. exact (L1 _ _ H).
        - intros a b nm Ha Hb. apply HH in Ha, Hb. eauto.
        - intros nm H. destruct (L3 nm H) as [k Hk]. exists k. apply HH. exact Hk. }
    pose proof (H3 _ _ Eo) as HO.
    destruct op as [n pid|n nm create len san mtx rec|n remove|n w rec|n w|n len off|n bs off|n pw len off force]; cbn [mop_obj] in Eo; cbn [m_step mop_obj] in E;
      rewrite Eo in E.
    - injection E as <- <-. exact HL.
    - destruct Hok as [-> [-> Hok]]. destruct (Hok _ Eo) as [Hc [Hcr Hrd]].
      destruct (create_lemma (ucnt s) s o nm create len san H2 HO Hc) as [s1 [o' [b [E' [Ep [Em [HF [HK [Hob [Hlk [HO' [Ht Hf]]]]]]]]]]]].
      { intros X. destruct (Hcr X) as [? [? _]]. auto. } { exact Hrd. }
      { intros X d m mp K1 K2 K3. destruct (Hcr X) as [_ [_ Hall]].
        destruct (c_db _ _ H2 _ _ _ K1) as [m' [mp' [f' [G1 [G2 [G3 [G4 [G5 [G6 [G7 G8]]]]]]]]]].
        assert (Hne : exists k x, In (k, x) (users s (o_pid o) nm)).
        { unfold ucnt in G8. destruct (users s (o_pid o) nm) as [|[k x] l]; [cbn in G8; lia|]. exists k, x. left. reflexivity. }
        destruct Hne as [k [x Hx]]. pose proof (Hall _ _ Hx) as Hmx. apply in_users in Hx; [|exact H1]. destruct Hx as [Hx Hu].
        apply uses_iff in Hu. destruct Hu as [U1 [U2 U3]]. pose proof (H3 _ _ Hx) as HOx. unfold obj_ok in HOx. rewrite U1 in HOx.
        destruct HOx as [nm2 [mp2 [f2 [A [B [C [D _]]]]]]]. assert (nm2 = nm) by congruence. subst nm2. rewrite U2 in C.
        destruct C as [d2 [m2 [C1 [[C2 _] [C5 [C6 C7]]]]]].
        assert (d2 = d) by congruence. subst d2. assert (m2 = m) by congruence. subst m2. assert (mp2 = mp) by congruence. subst mp2.
        apply D. exact Hmx. }
      rewrite E' in E. cbn [put] in E. injection E as <- <-.
      assert (Hac : o_acc o' = Closed).
      { destruct b; [apply Ht; reflexivity|]. destruct (Hf eq_refl) as [X _]. unfold obj_ok in HO'. rewrite X in HO'. apply HO'. }
      unfold obj_ok in HO. rewrite Hc in HO. destruct HO as [_ [_ [Hac0 _]]].
      apply (lock_same s s1 n o o' HL Eo Hob Hlk). intros x. rewrite Hac, Hac0. tauto.
    - destruct (o_created o) eqn:Hc.
      + pose proof HO as HO0. unfold obj_ok in HO0. rewrite Hc in HO0. destruct HO0 as [nm [_ [_ [A _]]]].
        destruct (destroy_lemma (ucnt s) s o remove nm H2 HO Hc A) as [s1 [E' [HC [HF [HK [Hob [Hfi [Hlk _]]]]]]]].
        rewrite E' in E. cbn [put] in E. injection E as <- <-.
        eapply (lock_drop s s1 n o _ nm HL Eo Hob Hlk); [| |reflexivity].
        * intros m Hm. exact (Hd _ _ _ Eo A Hm).
        * intros x [y [Y1 [Y2 _]]]. congruence.
      + unfold mf_destroy in E. rewrite Hc in E. cbn [negb put] in E. injection E as <- <-.
        apply (lock_same s s n o o HL Eo); auto. tauto.
    - destruct Hok as [-> Hok]. destruct (Hok _ Eo) as [Hw Hg]. unfold mf_get in E.
      assert (Hno : mf_access false s o = Some (s, o, false) -> LockInv s').
      { intros X. rewrite X in E. cbn [put] in E. injection E as <- <-. apply (lock_same s s n o o HL Eo); auto. tauto. }
      destruct (o_created o) eqn:Hc.
      2:{ apply Hno. unfold mf_access. rewrite Hc. reflexivity. }
      pose proof HO as HO0. unfold obj_ok in HO0. rewrite Hc in HO0. destruct HO0 as [nm [mp0 [f0 [A [B [C _]]]]]].
      destruct (is_locked nm s) eqn:Hl.
      { apply Hno. unfold mf_access. destruct C as [d [m [_ [_ [C5 _]]]]]. rewrite Hc, C5, B, A, Hl. reflexivity. }
      destruct (access_lemma (ucnt s) s o nm H2 HO Hc A) as [s1 [o' [mp [f [E' [HC [HF [HK [Hob [Hfi [P1 [P2 [P3 [P4 [P5 [P6 [P7 [P8 [P9 [P10 [P11 [P12 [P13 [P14 P15]]]]]]]]]]]]]]]]]]]]]]]].
      { intros Hlt. destruct (Hg _ eq_refl A Hlt) as [G1 G2]. split; [exact G1|].
        pose proof (users_cnt_one s n _ _ H1 G2). destruct (sync_facts _ _ _ _ _ _ _ H2 C) as [_ [_ [_ [_ [_ S6]]]]]. lia. }
      { exact Hl. }
      rewrite E' in E. cbn [put] in E. injection E as <- <-.
      assert (Hnone : forall k, ~ holds s k nm) by (intros k Hk; apply L1 in Hk; congruence).
      assert (HH : forall k x, holds (set_objs s1 (aset n (set_acc o' (acc_of w)) (s_objs s1))) k x <-> (k = n /\ x = nm) \/ (k <> n /\ holds s k x)).
      { intros k x. rewrite holds_put, Hob. cbn [set_acc o_name o_acc]. rewrite P3. split.
        - intros [[-> [X _]]|X]; [left; split; congruence|right; exact X].
        - intros [[-> ->]|X]; [left; repeat split; destruct w; discriminate|right; exact X]. }
      assert (HLk : forall x, is_locked x (set_objs s1 (aset n (set_acc o' (acc_of w)) (s_objs s1))) = Nat.eqb x nm || is_locked x s).
      { intros x. unfold is_locked. cbn [set_objs s_locks]. rewrite P15. reflexivity. }
      assert (Hmine : forall x, holds s n x -> x = nm) by (intros x [y [Y1 [Y2 _]]]; congruence).
      split; [|split].
      + intros k x H. rewrite HLk. apply HH in H. destruct H as [[-> ->]|[_ H]]; [rewrite Nat.eqb_refl; reflexivity|]. rewrite (L1 _ _ H). apply orb_true_r.
      + intros a b x Ha Hb. apply HH in Ha, Hb. destruct Ha as [[-> ->]|[A1 A2]], Hb as [[B1 B2]|[B1 B2]]; try congruence.
        * exfalso. exact (Hnone _ B2).
        * subst. exfalso. exact (Hnone _ A2).
        * eauto.
      + intros x H. rewrite HLk in H. apply orb_true_iff in H. destruct H as [H|H].
        * apply Nat.eqb_eq in H. subst x. exists n. apply HH. auto.
        * destruct (L3 _ H) as [k Hk]. exists k. apply HH. destruct (Nat.eq_dec k n) as [->|]; [left; split; [reflexivity|auto]|right; auto].
    - unfold mf_release in E.
      assert (Hno : s' = set_objs s (aset n o (s_objs s)) -> LockInv s').
      { intros ->. apply (lock_same s s n o o HL Eo); auto. tauto. }
      destruct (o_created o) eqn:Hc; cbn [negb] in E; [|cbn [put] in E; injection E as <- <-; auto].
      destruct (acc_eqb (o_acc o) (acc_of w)) eqn:Ea; cbn [negb put] in E; [|injection E as <- <-; auto].
      injection E as <- <-.
      pose proof HO as HO0. unfold obj_ok in HO0. rewrite Hc in HO0. destruct HO0 as [nm [mp0 [f0 [A [B [C _]]]]]].
      assert (Hh : holds s n nm). { exists o. split; [exact Eo|]. split; [exact A|]. destruct (o_acc o), w; cbn in Ea; discriminate. }
      apply (lock_drop s (mtx_destroy o s) n o _ nm HL Eo); unfold mtx_destroy; rewrite ?B; try reflexivity.
      + intros m Hm. eauto.
      + intros x [y [Y1 [Y2 _]]]. congruence.
    - destruct (mf_read len off s o); [|discriminate]. injection E as <- <-. exact HL.
    - destruct (write_lemma (ucnt s) s o bs off H2 HO Hok) as [s1 [o' [k [E' [HC [HF [HK [Hob [HO' [Hu [Ha Hcase]]]]]]]]]]].
      rewrite E' in E. cbn [putz] in E. injection E as <- <-.
      apply (lock_same s s1 n o o' HL Eo Hob).
      + destruct Hcase as [[_ [-> _]]|[_ [_ [? [? [_ [_ R]]]]]]]; [reflexivity|apply R].
      + intros x. rewrite Ha. destruct (o_acc o) eqn:Ea; [tauto| |].
        all: assert (Hc : o_created o = true) by (apply (acc_created s n o HI Eo); congruence).
        all: pose proof HO as HO0; unfold obj_ok in HO0; rewrite Hc in HO0; destruct HO0 as [nm [_ [_ [A _]]]].
        all: assert (X : uses (o_pid o) nm o' = true) by (rewrite Hu; apply uses_iff; auto).
        all: apply uses_iff in X; destruct X as [_ [_ X]]; rewrite X, A; tauto.
    - destruct Hok as [Hr Hpw]. destruct (payload_lemma (ucnt s) s o pw len off force H2 HO Hr Hpw) as [s1 [o' [k [E' [HC [HF [HK [Hob [HO' [Hu [Ha Hcase]]]]]]]]]]].
      rewrite E' in E. cbn [putz] in E. injection E as <- <-.
      apply (lock_same s s1 n o o' HL Eo Hob).
      + destruct Hcase as [[_ [-> _]]|[_ [_ [? [? [_ [[? [? [_ [_ R]]]] _]]]]]]]; [reflexivity|apply R].
      + intros x. rewrite Ha. destruct (o_acc o) eqn:Ea; [tauto| |].
        all: assert (Hc : o_created o = true) by (apply (acc_created s n o HI Eo); congruence).
        all: pose proof HO as HO0; unfold obj_ok in HO0; rewrite Hc in HO0; destruct HO0 as [nm [_ [_ [A _]]]].
        all: assert (X : uses (o_pid o) nm o' = true) by (rewrite Hu; apply uses_iff; auto).
        all: apply uses_iff in X; destruct X as [_ [_ X]]; rewrite X, A; tauto.
  Qed.

  Lemma run_lock ops : forall s, Inv s -> LockInv s -> run_ok lenof ops s -> run_excl ops s ->
    forall s' rs, m_run ops s = Some (s', rs) -> LockInv s'.
  Proof.
    induction ops as [|op ops IH]; intros s HI HL Hok Hex s' rs; cbn [m_run].
    - intros [= <- <-]. exact HL.
    - destruct Hok as [Ho Hr], Hex as [Hd Hx]. destruct (step_inv s op HI Ho) as [s1 [r [E [HI1 _]]]]. rewrite E in *.
      destruct (m_run ops s1) as [[s2 rs2]|] eqn:E2; [|discriminate]. intros [= <- <-].
      exact (IH s1 HI1 (step_lock s op s1 r HI HL Ho Hd E) Hr Hx s2 rs2 E2).
  Qed.
  Lemma exclusive_lemma ops s rs : run_ok lenof ops sys_init -> run_excl ops sys_init -> m_run ops sys_init = Some (s, rs) ->
    (forall n m nm, holds s n nm -> holds s m nm -> n = m) /\
    (forall nm, is_locked nm s = true <-> exists n, holds s n nm).
  Proof.
    intros Hok Hex E. assert (HL : LockInv s).
    { eapply (run_lock ops sys_init inv_init); eauto. repeat split; cbn.
      - intros n nm [o [X _]]. discriminate.
      - intros n m nm [o [X _]]. discriminate.
      - discriminate. }
    destruct HL as [L1 [L2 L3]]. split; [exact L2|]. intros nm. split; [apply L3|]. intros [n H]. eauto.
  Qed.

  (** ** The table of mapped files *)
  Lemma refcount_lemma ops s rs : run_ok lenof ops sys_init -> m_run ops sys_init = Some (s, rs) ->
    (forall p nm i, aget (p, nm) (s_db s) = Some i ->
       i_ref i = Z.of_nat (length (users s p nm)) /\ users s p nm <> [] /\
       exists m mp, i_map i = Some m /\ aget m (s_maps s) = Some mp /\ i_size i = mp_len mp) /\
    (forall p nm, aget (p, nm) (s_db s) = None -> users s p nm = []) /\
    (forall m mp, aget m (s_maps s) = Some mp -> exists p nm n o, In (n, o) (users s p nm) /\ i_map (o_info o) = Some m) /\
    (forall p nm n o, In (n, o) (users s p nm) -> exists i, aget (p, nm) (s_db s) = Some i /\ i_map (o_info o) = i_map i).
  Proof.
    intros Hok E. destruct (reach _ _ _ Hok E) as [[H1 [H2 H3]] _].
    assert (HU : forall p nm n o, In (n, o) (users s p nm) -> exists i, aget (p, nm) (s_db s) = Some i /\ i_map (o_info o) = i_map i).
    { intros p nm n o Hin. apply in_users in Hin; [|exact H1]. destruct Hin as [Hn Hu]. apply uses_iff in Hu. destruct Hu as [U1 [U2 U3]].
      pose proof (H3 _ _ Hn) as HO. unfold obj_ok in HO. rewrite U1 in HO. destruct HO as [nm' [mp [f [A [B [C _]]]]]].
      assert (nm' = nm) by congruence. subst nm'. destruct C as [d [m [C1 [[C2 _] _]]]]. exists d. rewrite U2 in C1. auto. }
    split; [|split; [|split]]; [| | |exact HU].
    - intros p nm i Hi. destruct (c_db _ _ H2 _ _ _ Hi) as [m [mp [f [A [B [C [D [E1 [E2 [E3 E4]]]]]]]]]]. unfold ucnt in *.
      split; [exact E3|]. split; [intros X; rewrite X in E4; cbn in E4; lia|]. exists m, mp. auto.
    - intros p nm Hn. pose proof (c_nodb _ _ H2 _ _ Hn) as X. unfold ucnt in X. destruct (users s p nm); [reflexivity|cbn in X; lia].
    - intros m mp Hm. destruct (c_noleak _ _ H2 _ _ Hm) as [p [nm [i [A B]]]].
      destruct (c_db _ _ H2 _ _ _ A) as [_ [_ [_ [_ [_ [_ [_ [_ [_ [_ E4]]]]]]]]]].
      unfold ucnt in E4. destruct (users s p nm) as [|[n o] l] eqn:Eu; [cbn in E4; lia|].
      exists p, nm, n, o. split; [rewrite Eu; left; reflexivity|]. destruct (HU p nm n o) as [i' [A' B']]; [rewrite Eu; left; reflexivity|]. congruence.
  Qed.

  Lemma unlink_lemma ops s rs n o nm : run_ok lenof ops sys_init -> m_run ops sys_init = Some (s, rs) ->
    users s (o_pid o) nm = [(n, o)] ->
    exists s', m_step (MDestroy n true) s = Some (s', MBool true) /\ aget nm (s_names s') = None /\
      aget (o_pid o, nm) (s_db s') = None /\ users s' (o_pid o) nm = [].
  Proof.
    intros Hok E Hu. destruct (reach _ _ _ Hok E) as [HI _]. pose proof HI as [H1 [H2 H3]].
    assert (Hin : In (n, o) (users s (o_pid o) nm)) by (rewrite Hu; left; reflexivity).
    apply in_users in Hin; [|exact H1]. destruct Hin as [Hn Hus]. apply uses_iff in Hus. destruct Hus as [U1 [_ U3]].
    assert (Hcnt : ucnt s (o_pid o) nm = 1%Z) by (unfold ucnt; rewrite Hu; reflexivity).
    destruct (destroy_lemma (ucnt s) s o true nm H2 (H3 _ _ Hn) U1 U3) as [s1 [E' [HC [HF [HK [Hob [Hfi [Hlk Hrm]]]]]]]].
    destruct (step_inv s (MDestroy n true) HI I) as [s' [r [Es [HI' _]]]].
    pose proof Es as Es'. cbn [m_step mop_obj] in Es'. rewrite Hn, E' in Es'. cbn [put] in Es'. injection Es' as <- <-.
    eexists. split; [exact Es|]. cbn [set_objs s_names s_db].
    assert (Hdb : exists d, aget (o_pid o, nm) (s_db s) = Some d).
    { pose proof (H3 _ _ Hn) as HO. unfold obj_ok in HO. rewrite U1 in HO. destruct HO as [nm' [mp [f [A [B [C _]]]]]].
      assert (nm' = nm) by congruence. subst nm'. destruct C as [d [m [C1 _]]]. eauto. }
    destruct Hdb as [d Hdb].
    split; [apply (Hrm d Hdb Hcnt); apply orb_true_r|].
    assert (Hz : plus1 (ucnt s) (o_pid o) nm (-1) (o_pid o) nm = 0%Z) by (rewrite plus1_same; lia).
    split.
    - destruct (aget (o_pid o, nm) (s_db s1)) as [i|] eqn:Ei; [|reflexivity].
      destruct (c_db _ _ HC _ _ _ Ei) as [_ [_ [_ [_ [_ [_ [_ [_ [_ [_ X]]]]]]]]]]. lia.
    - match goal with |- users ?x _ _ = [] => assert (Hx : ucnt x (o_pid o) nm = 0%Z) end.
      { unfold ucnt, users. cbn [set_objs s_objs]. rewrite Hob, (filter_aset _ _ n o _ H1 Hn). fold (users s (o_pid o) nm).
        rewrite Hu. cbn [snd length]. rewrite (proj2 (uses_iff (o_pid o) nm o)) by auto. reflexivity. }
      unfold ucnt in Hx. apply length_zero_iff_nil. lia.
  Qed.
End Inv.

(** ** Counterexamples *)
Definition cx_len : nat -> Z := fun _ => 5000%Z.

Lemma run_ok_cons lenof op ops s s1 r :
  op_ok lenof s op -> m_step op s = Some (s1, r) -> run_ok lenof ops s1 -> run_ok lenof (op :: ops) s.
Proof. intros H1 H2 H3. cbn [run_ok]. rewrite H2. auto. Qed.

Ltac contra_users H := vm_compute in H; repeat destruct H as [H|H]; try discriminate; try contradiction; try (injection H as <- <-; reflexivity).
Ltac op_solve :=
  cbn [op_ok];
  try exact I;
  try match goal with |- (_ <= _ /\ _)%Z => vm_compute; repeat split; congruence end;
  try (split; [vm_compute; repeat split; congruence|]; intros; cbn; rewrite ?map_length; split; reflexivity);
  try (split; [reflexivity|]; try (split; [reflexivity|]);
       let o := fresh in let E := fresh in intros o E; vm_compute in E; try discriminate E; injection E as <-;
       repeat match goal with
       | |- _ /\ _ => split
       | |- ?a = ?a => reflexivity
       | |- false = true -> _ => discriminate
       | |- true = false -> _ => discriminate
       | |- _ -> _ => let H := fresh in intros H
       | |- forall _, _ => intros
       end; try reflexivity; try (vm_compute; reflexivity);
       repeat match goal with H : o_name _ = Some _ |- _ => vm_compute in H; injection H as <- end;
       match goal with
       | H : In _ _ |- _ => contra_users H
       | H : (_ < _)%Z |- _ => vm_compute in H; discriminate
       | _ => idtac
       end).
Ltac run_solve := repeat (eapply run_ok_cons; [op_solve|vm_compute; reflexivity|]); exact I.

Lemma exclusive_counterexample : exists lenof ops s rs n m nm,
  run_ok lenof ops sys_init /\ m_run ops sys_init = Some (s, rs) /\ n <> m /\ holds s n nm /\ holds s m nm.
Proof.
  exists cx_len.
  exists [MNew 0 1; MCreate 0 7 true 5000 true true false; MNew 1 2; MCreate 1 7 false 0 false true false;
          MNew 2 3; MCreate 2 7 true 5000 true true false; MGet 0 true false; MDestroy 1 false; MGet 2 true false].
  eexists _, _, 0, 2, 7.
  split; [run_solve|]. split; [vm_compute; reflexivity|]. split; [discriminate|].
  split; eexists; (split; [vm_compute; reflexivity|split; [reflexivity|discriminate]]).
Qed.

Lemma smaller_counterexample : exists ops, sizes_asked ops = [5000; 100]%Z /\ m_run ops sys_init = None.
Proof.
  exists [MNew 0 1; MCreate 0 7 true 5000 true true false; MNew 1 2; MCreate 1 7 true 100 true true false;
          MGet 0 true false; MWrite 0 [1%Z] 4500].
  split; vm_compute; reflexivity.
Qed.

Lemma reader_first_counterexample : exists ops, sizes_asked ops = [5000; 5000]%Z /\ m_run ops sys_init = None.
Proof.
  exists [MNew 0 1; MCreate 0 7 true 5000 true true false; MNew 1 2; MCreate 1 7 false 0 false true false;
          MNew 2 2; MCreate 2 7 true 5000 true true false; MGet 2 true false; MWrite 2 [1%Z] 0].
  split; vm_compute; reflexivity.
Qed.

Lemma overflow_counterexample : exists ops s rs len off,
  run_ok (fun _ => 5000%Z) ops sys_init /\ m_run ops sys_init = Some (s, rs) /\ (0 <= len < 2 ^ 64)%Z /\ (0 <= off < 2 ^ 64)%Z /\
  m_step (MRead 1 len off) s = None.
Proof.
  exists [MNew 0 1; MCreate 0 7 true 5000 true true false; MNew 1 2; MCreate 1 7 false 0 false true false;
          MGet 0 true false; MWrite 0 [1%Z] 0; MRelease 0 true; MGet 1 false false].
  eexists _, _, 2%Z, (2 ^ 64 - 1)%Z.
  split; [run_solve|]. split; [vm_compute; reflexivity|]. split; [lia|]. split; [lia|]. vm_compute. reflexivity.
Qed.

Lemma stale_counterexample : exists ops, sizes_asked ops = [5000]%Z /\ m_run ops sys_init = None.
Proof.
  exists [MNew 0 1; MCreate 0 7 true 5000 true true false; MNew 1 2; MCreate 1 7 false 0 false true false;
          MNew 2 2; MCreate 2 7 false 0 false true false; MGet 1 false false; MRelease 1 false; MGet 2 false false].
  split; vm_compute; reflexivity.
Qed.

Lemma leak_counterexample : exists ops s rs,
  m_run ops sys_init = Some (s, rs) /\ (forall n o, aget n (s_objs s) = Some o -> o_created o = false) /\
  In (MBool false) rs /\ s_maps s <> [] /\
  (forall n o b s' r, aget n (s_objs s) = Some o -> m_step (MDestroy n b) s = Some (s', r) -> s_maps s' = s_maps s).
Proof.
  exists [MNew 0 1; MCreate 0 7 true 5000 true false false]. eexists _, _. split; [vm_compute; reflexivity|].
  assert (H : forall (n : nat) o l (x : obj), aget n [(l, x)] = Some o -> x = o).
  { intros n o l x. cbn. destruct (eqb n l); [congruence|discriminate]. }
  split; [|split; [right; left; reflexivity|split; [discriminate|]]].
  - intros n o Hn. apply H in Hn. subst o. reflexivity.
  - intros n o b s' r Hn. cbn [m_step mop_obj]. rewrite Hn. apply H in Hn. subst o. cbn. intros [= <- _]. reflexivity.
Qed.
