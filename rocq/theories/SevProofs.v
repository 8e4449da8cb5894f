(** Proofs about the connection events of a service server. *)
From Verif Require Import Base SevModel SevSpec.

Lemma n_run_app a : forall b s s2 tr, n_run (a ++ b) s = Some (s2, tr) ->
  exists s1 tr1 tr2, n_run a s = Some (s1, tr1) /\ n_run b s1 = Some (s2, tr2) /\ tr = tr1 ++ tr2.
Proof.
  induction a as [|op a IH]; intros b s s2 tr E.
  - exists s, [], tr. auto.
  - cbn in *. destruct (n_step op s) as [[s1 e1]|]; [|discriminate].
    destruct (n_run (a ++ b) s1) as [[s3 e3]|] eqn:E3; [|discriminate]. injection E as <- <-.
    destruct (IH b s1 s3 e3 E3) as (s4 & t1 & t2 & A & B & ->). rewrite A. exists s4, (e1 ++ t1), t2. rewrite app_assoc. auto.
Qed.
Lemma n_run_join a : forall b s s1 tr1 s2 tr2, n_run a s = Some (s1, tr1) -> n_run b s1 = Some (s2, tr2) -> n_run (a ++ b) s = Some (s2, tr1 ++ tr2).
Proof.
  induction a as [|op a IH]; intros b s s1 tr1 s2 tr2 E1 E2; cbn in *.
  - injection E1 as <- <-. exact E2.
  - destruct (n_step op s) as [[s3 e3]|]; [|discriminate]. destruct (n_run a s3) as [[s4 e4]|] eqn:E4; [|discriminate].
    injection E1 as <- <-. rewrite (IH b s3 s4 e4 s2 tr2 E4 E2), app_assoc. reflexivity.
Qed.
Lemma n_run_snoc a op s s2 tr : n_run (a ++ [op]) s = Some (s2, tr) ->
  exists s1 tr1 e, n_run a s = Some (s1, tr1) /\ n_step op s1 = Some (s2, e) /\ tr = tr1 ++ e.
Proof.
  intros E. apply n_run_app in E. destruct E as (s1 & t1 & t2 & A & B & ->). cbn in B.
  destruct (n_step op s1) as [[s3 e3]|] eqn:E3; [|discriminate]. injection B as <- <-. rewrite app_nil_r.
  exists s1, t1, e3. auto.
Qed.

Lemma clients_snoc ops op : clients (ops ++ [op]) = joined (clients ops) op.
Proof. unfold clients. rewrite fold_left_app. reflexivity. Qed.
Definition accepted (ops : list nop) (i : nat) : Prop := exists v, In (NAccept i v) ops.
Lemma version_snoc ops op i : accepted ops i -> version_of (ops ++ [op]) i = version_of ops i.
Proof.
  intros [v H]. induction ops as [|o ops IH]; [destruct H|]. destruct H as [->|H].
  - cbn. rewrite Nat.eqb_refl. reflexivity.
  - cbn. rewrite (IH H). reflexivity.
Qed.
Lemma version_new ops i v : ~ accepted ops i -> version_of (ops ++ [NAccept i v]) i = v.
Proof.
  induction ops as [|o ops IH]; intros H; cbn; [rewrite Nat.eqb_refl; reflexivity|].
  assert (N : ~ accepted ops i) by (intros [w Hw]; apply H; exists w; right; exact Hw).
  rewrite (IH N). destruct o; try reflexivity. destruct (Nat.eqb i0 i) eqn:Q; [|reflexivity].
  apply Nat.eqb_eq in Q. subst. exfalso. apply H. eexists. left. reflexivity.
Qed.

(** ** Sessions and clients *)
Record J (ops : list nop) (s : sev) : Prop := {
  j_acc : forall i, accepted ops i <-> aget i (se_sessions s) <> None;
  j_ver : forall i v x, aget i (se_sessions s) = Some (v, x) -> version_of ops i = v;
  j_cl : forall i, In i (clients ops) <-> exists v, aget i (se_sessions s) = Some (v, Conn);
  j_nd : NoDup (keys (se_sessions s));
  j_pnd : NoDup (keys (se_pending s));
  j_pend : forall i t p, aget i (se_pending s) = Some (t, p) -> exists v, aget i (se_sessions s) = Some (v, match t with EConn => Conn | EDisc => Gone end) }.

Lemma accepted_snoc ops op i : accepted (ops ++ [op]) i <-> accepted ops i \/ exists v, op = NAccept i v.
Proof.
  unfold accepted. split.
  - intros [v H]. apply in_app_or in H. destruct H as [H|[->|[]]]; eauto.
  - intros [[v H]|[v ->]]; exists v; apply in_or_app; [left; exact H|right; left; reflexivity].
Qed.
Lemma in_filter_ne i j l : In j (filter (fun k => negb (Nat.eqb k i)) l) <-> In j l /\ j <> i.
Proof. rewrite filter_In, Bool.negb_true_iff, Nat.eqb_neq. tauto. Qed.

Lemma J_same ops op s s' : J ops s -> (forall i v, op <> NAccept i v) -> (forall i, op <> NConnect i) -> (forall i, op <> NLost i) ->
  se_sessions s' = se_sessions s -> NoDup (keys (se_pending s')) ->
  (forall i t p, aget i (se_pending s') = Some (t, p) -> exists p', aget i (se_pending s) = Some (t, p')) -> J (ops ++ [op]) s'.
Proof.
  intros [A V C N P Q] H1 H2 H3 S Np Hp.
  constructor; rewrite ?S; auto.
  - intros i. rewrite accepted_snoc, A. split; [intros [H|[v ->]]; [exact H|destruct (H1 i v eq_refl)]|auto].
  - intros i v x G. rewrite version_snoc; [eapply V; exact G|]. apply A. congruence.
  - intros i. rewrite clients_snoc. destruct op; cbn [joined]; try apply C; [destruct (H2 i0 eq_refl)|destruct (H3 i0 eq_refl)].
  - intros i t p G. destruct (Hp i t p G) as [p' G']. apply (Q i t p' G').
Qed.
Lemma J_step ops s op s' e : J ops s -> n_step op s = Some (s', e) -> J (ops ++ [op]) s'.
Proof.
  intros Hj E. pose proof Hj as [A V C N P Q]. unfold n_step in E. destruct (se_dead s); [discriminate|].
  destruct op as [i v|i|i|i|i|i|t cb|t].
  - unfold amem in E. destruct (aget i (se_sessions s)) eqn:G; [discriminate|]. injection E as <- <-.
    assert (Na : ~ accepted ops i) by (rewrite A; congruence).
    constructor; cbn [se_sessions se_pending set_sessions aget].
    + intros j. rewrite accepted_snoc. destruct (eqb j i) eqn:B.
      * apply eqb_true in B. subst j. split; [discriminate|intros _; right; eauto].
      * apply eqb_false in B. rewrite A. split; [intros [H|[w H]]; [exact H|injection H as <- <-; congruence]|auto].
    + intros j w x. destruct (eqb j i) eqn:B.
      * apply eqb_true in B. subst j. intros F. injection F as <- <-. apply version_new, Na.
      * intros F. rewrite version_snoc; [eapply V; eauto|]. apply A. congruence.
    + intros j. rewrite clients_snoc. cbn [joined]. rewrite C. destruct (eqb j i) eqn:B; [|tauto].
      apply eqb_true in B. subst j. rewrite G. split; intros [w H]; discriminate.
    + cbn. constructor; [|exact N]. intros H. unfold keys in H. apply in_map_iff in H. destruct H as ([k y] & F & H). cbn in F. subst k.
      rewrite (in_aget _ _ _ N H) in G. discriminate.
    + exact P.
    + intros j t p F. destruct (Q j t p F) as [w G2]. destruct (eqb j i) eqn:B; [apply eqb_true in B; subst j; congruence|eauto].
  - destruct (aget i (se_sessions s)) as [[v [| |]]|] eqn:G; try discriminate. injection E as <- <-.
    assert (Pn : aget i (se_pending s) = None).
    { destruct (aget i (se_pending s)) as [[t p]|] eqn:F; [|reflexivity]. destruct (Q i t p F) as [w H]. destruct t; congruence. }
    constructor; cbn [se_sessions se_pending set_sessions set_pending aget].
    + intros j. rewrite accepted_snoc, A, aget_aset. destruct (eqb j i) eqn:B.
      * apply eqb_true in B. subst j. rewrite G. split; [discriminate|intros _; left; discriminate].
      * split; [intros [H|[w H]]; [exact H|discriminate]|auto].
    + intros j w x. rewrite aget_aset. intros F.
      assert (Ac : accepted ops j) by (apply A; destruct (eqb j i) eqn:B; [apply eqb_true in B; subst; congruence|congruence]).
      rewrite version_snoc by exact Ac. destruct (eqb j i) eqn:B; [|eapply V; eauto].
      apply eqb_true in B. subst j. injection F as <- <-. eapply V; eauto.
    + intros j. rewrite clients_snoc. cbn [joined In]. rewrite C, aget_aset. destruct (eqb j i) eqn:B.
      * apply eqb_true in B. subst j. split; [intros _; eauto|intros _; left; reflexivity].
      * apply eqb_false in B. split; [intros [H|H]; [congruence|exact H]|auto].
    + apply nodup_aset, N.
    + cbn. constructor; [|exact P]. intros H. unfold keys in H. apply in_map_iff in H. destruct H as ([k y] & F & H). cbn in F. subst k.
      rewrite (in_aget _ _ _ P H) in Pn. discriminate.
    + intros j t p. destruct (eqb j i) eqn:B.
      * apply eqb_true in B. subst j. intros F. injection F as <- <-. rewrite aget_aset_same. eauto.
      * intros F. destruct (Q j t p F) as [w H]. rewrite aget_aset, B. eauto.
  - destruct (aget i (se_sessions s)) as [[[|] [| |]]|] eqn:G; try discriminate. injection E as <- <-.
    constructor; cbn [se_sessions se_pending set_sessions].
    + intros j. rewrite accepted_snoc, A, aget_aset. destruct (eqb j i) eqn:B.
      * apply eqb_true in B. subst j. rewrite G. split; [discriminate|intros _; left; discriminate].
      * split; [intros [H|[w H]]; [exact H|discriminate]|auto].
    + intros j w x. rewrite aget_aset. intros F.
      assert (Ac : accepted ops j) by (apply A; destruct (eqb j i) eqn:B; [apply eqb_true in B; subst; congruence|congruence]).
      rewrite version_snoc by exact Ac. destruct (eqb j i) eqn:B; [|eapply V; eauto].
      apply eqb_true in B. subst j. injection F as <- <-. eapply V; eauto.
    + intros j. rewrite clients_snoc. cbn [joined]. rewrite C, aget_aset. destruct (eqb j i) eqn:B; [|tauto].
      apply eqb_true in B. subst j. rewrite G. split; intros [w H]; discriminate.
    + apply nodup_aset, N.
    + exact P.
    + intros j t p F. destruct (Q j t p F) as [w H]. rewrite aget_aset. destruct (eqb j i) eqn:B; [|eauto].
      apply eqb_true in B. subst j. destruct t; congruence.
  - destruct (aget i (se_sessions s)) as [[v [| |]]|] eqn:G; try discriminate. destruct (aget i (se_pending s)) eqn:Pn; [discriminate|].
    injection E as <- <-.
    constructor; cbn [se_sessions se_pending set_sessions set_pending aget].
    + intros j. rewrite accepted_snoc, A, aget_aset. destruct (eqb j i) eqn:B.
      * apply eqb_true in B. subst j. rewrite G. split; [discriminate|intros _; left; discriminate].
      * split; [intros [H|[w H]]; [exact H|discriminate]|auto].
    + intros j w x. rewrite aget_aset. intros F.
      assert (Ac : accepted ops j) by (apply A; destruct (eqb j i) eqn:B; [apply eqb_true in B; subst; congruence|congruence]).
      rewrite version_snoc by exact Ac. destruct (eqb j i) eqn:B; [|eapply V; eauto].
      apply eqb_true in B. subst j. injection F as <- <-. eapply V; eauto.
    + intros j. rewrite clients_snoc. cbn [joined]. rewrite in_filter_ne, C, aget_aset. destruct (eqb j i) eqn:B.
      * apply eqb_true in B. subst j. split; [intros [_ H]; congruence|intros [w H]; discriminate].
      * apply eqb_false in B. tauto.
    + apply nodup_aset, N.
    + cbn. constructor; [|exact P]. intros H. unfold keys in H. apply in_map_iff in H. destruct H as ([k y] & F & H). cbn in F. subst k.
      rewrite (in_aget _ _ _ P H) in Pn. discriminate.
    + intros j t p. destruct (eqb j i) eqn:B.
      * apply eqb_true in B. subst j. intros F. injection F as <- <-. rewrite aget_aset_same. eauto.
      * intros F. destruct (Q j t p F) as [w H]. rewrite aget_aset, B. eauto.
  - destruct (aget i (se_pending s)) as [[t [|]]|] eqn:G; try discriminate. injection E as <- <-.
    eapply J_same; try exact Hj; try discriminate; cbn [se_sessions se_pending]; [reflexivity| |].
    + destruct (_ || _)%bool; [apply nodup_aset, P|unfold keys, adel; apply nodup_map_filter, P].
    + intros j t' p. destruct (_ || _)%bool; rewrite ?aget_aset, ?aget_adel; destruct (eqb j i) eqn:B; try discriminate; eauto.
      apply eqb_true in B. subst j. intros F. injection F as <- <-. eauto.
  - destruct (aget i (se_pending s)) as [[t [|]]|] eqn:G; try discriminate.
    assert (X : se_sessions s' = se_sessions s /\ se_pending s' = adel i (se_pending s)).
    { destruct (callback_of t s) as [[cb|]|]; injection E as <- <-; auto. }
    destruct X as [X1 X2]. eapply J_same; try exact Hj; try discriminate; rewrite ?X2; [exact X1| |].
    + unfold keys, adel; apply nodup_map_filter, P.
    + intros j t' p. rewrite aget_adel. destruct (eqb j i); [discriminate|eauto].
  - injection E as <- <-. destruct t; (eapply J_same; try exact Hj; try discriminate; cbn; eauto).
  - injection E as <- <-. destruct t; (eapply J_same; try exact Hj; try discriminate; cbn; eauto).
Qed.
Lemma J_run ops : forall s tr, n_run ops sev0 = Some (s, tr) -> J ops s.
Proof.
  induction ops as [|op ops IH] using rev_ind; intros s tr E.
  - cbn in E. injection E as <- <-. constructor; cbn; try discriminate; try constructor; try tauto.
    + intros [v []].
    + intros [v H]. discriminate.
  - apply n_run_snoc in E. destruct E as (s1 & t1 & e & A & B & ->). eapply J_step; eauto.
Qed.

(** ** Flags *)
Definition conn (v : bool) (l : list (nat * (bool * sstate))) : bool :=
  existsb (fun p => (Bool.eqb (fst (snd p)) v && match snd (snd p) with Conn => true | _ => false end)%bool) l.
Lemma conn_spec v l : NoDup (keys l) -> conn v l = true <-> exists i, aget i l = Some (v, Conn).
Proof.
  intros N. unfold conn. rewrite existsb_exists. split.
  - intros ([i [w x]] & H & Q). cbn in Q. apply andb_prop in Q. destruct Q as [Q1 Q2]. apply Bool.eqb_prop in Q1. subst w.
    destruct x; try discriminate. exists i. apply in_aget; assumption.
  - intros [i G]. exists (i, (v, Conn)). split; [apply aget_in; exact G|]. cbn. rewrite Bool.eqb_reflx. reflexivity.
Qed.
Lemma alive_spec v l : NoDup (keys l) -> alive v l = true <-> exists i x, aget i l = Some (v, x) /\ x <> Gone.
Proof.
  intros N. unfold alive. rewrite existsb_exists. split.
  - intros ([i [w x]] & H & Q). cbn in Q. apply andb_prop in Q. destruct Q as [Q1 Q2]. apply Bool.eqb_prop in Q1. subst w.
    exists i, x. split; [apply in_aget; assumption|]. intros ->. discriminate.
  - intros (i & x & G & X). exists (i, (v, x)). split; [apply aget_in; exact G|]. cbn. rewrite Bool.eqb_reflx. destruct x; (reflexivity || congruence).
Qed.
Lemma connected_conn ops s v : J ops s -> connected ops v = conn v (se_sessions s).
Proof.
  intros [A V C N P Q]. apply Bool.eq_iff_eq_true. rewrite (conn_spec v _ N). unfold connected. rewrite existsb_exists. split.
  - intros (i & H & Ev). apply C in H. destruct H as [w G]. apply Bool.eqb_prop in Ev. rewrite (V _ _ _ G) in Ev. subst w. eauto.
  - intros [i G]. exists i. split; [apply C; eauto|]. rewrite (V _ _ _ G). apply Bool.eqb_reflx.
Qed.
Lemma handshakes_none s : handshakes s = [] -> forall i v, NoDup (keys (se_sessions s)) -> aget i (se_sessions s) = Some (v, Hand) -> False.
Proof.
  intros H i v N G. assert (X : In i (handshakes s)).
  { unfold handshakes. change i with (fst (i, (v, Hand))). apply in_map. apply filter_In. split; [apply aget_in; exact G|reflexivity]. }
  rewrite H in X. destruct X.
Qed.
Lemma alive_conn s v : NoDup (keys (se_sessions s)) -> handshakes s = [] -> alive v (se_sessions s) = conn v (se_sessions s).
Proof.
  intros N H. apply Bool.eq_iff_eq_true. rewrite (conn_spec v _ N), (alive_spec v _ N). split.
  - intros (i & x & G & X). destruct x; [destruct (handshakes_none s H i v N G)|eauto|congruence].
  - intros [i G]. exists i, Conn. split; [exact G|discriminate].
Qed.

Definition flag (v : bool) (s : sev) : bool := if v then se_v1 s else se_v0 s.
Definition inflags (s : sev) : Prop := exists i t, aget i (se_pending s) = Some (t, PFlags).

Lemma known_step s op s' e : NoDup (keys (se_sessions s)) ->
  (forall i v, aget i (se_sessions s) = Some (v, Conn) -> flag v s = true \/ aget i (se_pending s) = Some (EConn, PFlags)) ->
  n_step op s = Some (s', e) ->
  forall i v, aget i (se_sessions s') = Some (v, Conn) -> flag v s' = true \/ aget i (se_pending s') = Some (EConn, PFlags).
Proof.
  intros N H E j w. unfold n_step in E. destruct (se_dead s); [discriminate|].
  destruct op as [i v|i|i|i|i|i|t cb|t].
  - destruct (amem i (se_sessions s)) eqn:G; [discriminate|]. injection E as <- <-. cbn. destruct (eqb j i); [discriminate|]. apply H.
  - destruct (aget i (se_sessions s)) as [[v [| |]]|] eqn:G; try discriminate. injection E as <- <-.
    cbn. rewrite aget_aset. destruct (eqb j i) eqn:B; [auto|]. apply H.
  - destruct (aget i (se_sessions s)) as [[[|] [| |]]|] eqn:G; try discriminate. injection E as <- <-.
    cbn. rewrite aget_aset. destruct (eqb j i) eqn:B; [discriminate|]. apply H.
  - destruct (aget i (se_sessions s)) as [[v [| |]]|] eqn:G; try discriminate. destruct (aget i (se_pending s)) eqn:Pn; [discriminate|].
    injection E as <- <-. cbn. rewrite aget_aset. destruct (eqb j i) eqn:B; [discriminate|]. apply H.
  - destruct (aget i (se_pending s)) as [[t [|]]|] eqn:G; try discriminate. injection E as <- <-. cbn [se_sessions].
    intros F. left. assert (X : alive w (se_sessions s) = true) by (apply alive_spec; [exact N|exists j, Conn; split; [exact F|discriminate]]).
    destruct w; exact X.
  - destruct (aget i (se_pending s)) as [[t [|]]|] eqn:G; try discriminate.
    assert (X : se_sessions s' = se_sessions s /\ se_pending s' = adel i (se_pending s) /\ flag w s' = flag w s).
    { destruct (callback_of t s) as [[cb|]|]; injection E as <- <-; auto. }
    destruct X as (-> & -> & ->). intros F. destruct (H j w F) as [X|X]; [auto|]. right. rewrite aget_adel.
    destruct (eqb j i) eqn:B; [|exact X]. apply eqb_true in B. subst. congruence.
  - injection E as <- <-. destruct t; apply H.
  - injection E as <- <-. destruct t; apply H.
Qed.
Lemma known_run ops : forall s tr, n_run ops sev0 = Some (s, tr) ->
  forall i v, aget i (se_sessions s) = Some (v, Conn) -> flag v s = true \/ aget i (se_pending s) = Some (EConn, PFlags).
Proof.
  induction ops as [|op ops IH] using rev_ind; intros s tr E.
  - cbn in E. injection E as <- <-. discriminate.
  - apply n_run_snoc in E. destruct E as (s1 & t1 & e & A & B & ->). eapply known_step; [|exact (IH s1 t1 A)|exact B].
    apply (j_nd _ _ (J_run _ _ _ A)).
Qed.
Lemma known_lemma ops s tr v : n_run ops sev0 = Some (s, tr) -> connected ops v = true -> flag v s = true \/ inflags s.
Proof.
  intros E C. pose proof (J_run _ _ _ E) as Hj. rewrite (connected_conn _ _ _ Hj), (conn_spec _ _ (j_nd _ _ Hj)) in C.
  destruct C as [i G]. destruct (known_run _ _ _ E i v G); [auto|]. right. exists i, EConn. assumption.
Qed.

Lemma cleared_step s op s' e : (forall i, op <> NRefuse i) -> NoDup (keys (se_sessions s)) ->
  (forall v, flag v s = true -> alive v (se_sessions s) = true \/ inflags s) ->
  n_step op s = Some (s', e) ->
  (forall v, flag v s' = true -> alive v (se_sessions s') = true \/ inflags s').
Proof.
  intros R N H E w. unfold n_step in E. destruct (se_dead s); [discriminate|].
  destruct op as [i v|i|i|i|i|i|t cb|t].
  - destruct (amem i (se_sessions s)) eqn:G; [discriminate|]. injection E as <- <-. cbn [se_sessions set_sessions]. intros F.
    destruct (H w) as [X|X]; [destruct w; exact F| |right; exact X]. left. unfold alive in *. cbn [existsb]. rewrite X. apply orb_true_r.
  - destruct (aget i (se_sessions s)) as [[v [| |]]|] eqn:G; try discriminate. injection E as <- <-. intros _. right.
    exists i, EConn. cbn. rewrite eqb_refl. reflexivity.
  - destruct (R i eq_refl).
  - destruct (aget i (se_sessions s)) as [[v [| |]]|] eqn:G; try discriminate. destruct (aget i (se_pending s)) eqn:Pn; [discriminate|].
    injection E as <- <-. intros _. right. exists i, EDisc. cbn. rewrite eqb_refl. reflexivity.
  - destruct (aget i (se_pending s)) as [[t [|]]|] eqn:G; try discriminate. injection E as <- <-. cbn [se_sessions].
    intros F. left. destruct w; exact F.
  - destruct (aget i (se_pending s)) as [[t [|]]|] eqn:G; try discriminate.
    assert (X : se_sessions s' = se_sessions s /\ se_pending s' = adel i (se_pending s) /\ flag w s' = flag w s).
    { destruct (callback_of t s) as [[cb|]|]; injection E as <- <-; auto. }
    destruct X as (X1 & X2 & X3). rewrite X1, X3. intros F. destruct (H w F) as [X|(j & t' & X)]; [auto|]. right. exists j, t'. rewrite X2, aget_adel.
    destruct (eqb j i) eqn:B; [|exact X]. apply eqb_true in B. subst. congruence.
  - injection E as <- <-. destruct t; apply H.
  - injection E as <- <-. destruct t; apply H.
Qed.
Lemma cleared_run ops : forall s tr, n_run ops sev0 = Some (s, tr) -> (forall i, ~ In (NRefuse i) ops) ->
  forall v, flag v s = true -> alive v (se_sessions s) = true \/ inflags s.
Proof.
  induction ops as [|op ops IH] using rev_ind; intros s tr E R.
  - cbn in E. injection E as <- <-. intros v F. destruct v; discriminate.
  - apply n_run_snoc in E. destruct E as (s1 & t1 & e & A & B & ->). eapply cleared_step; [| |apply (IH s1 t1 A)|exact B].
    + intros i ->. apply (R i). apply in_or_app. right. left. reflexivity.
    + apply (j_nd _ _ (J_run _ _ _ A)).
    + intros i Hi. apply (R i). apply in_or_app. auto.
Qed.
Lemma settled_lemma ops s tr : n_run ops sev0 = Some (s, tr) -> (forall i, ~ In (NRefuse i) ops) -> se_pending s = [] -> handshakes s = [] ->
  se_v0 s = connected ops false /\ se_v1 s = connected ops true.
Proof.
  intros E R P H. pose proof (J_run _ _ _ E) as Hj.
  assert (X : forall v, flag v s = connected ops v).
  { intros v. apply Bool.eq_iff_eq_true. split.
    - intros F. destruct (cleared_run _ _ _ E R v F) as [X|(i & t & X)]; [|rewrite P in X; discriminate].
      rewrite (connected_conn _ _ _ Hj), <- (alive_conn s v (j_nd _ _ Hj) H). exact X.
    - intros F. destruct (known_lemma _ _ _ _ E F) as [X|(i & t & X)]; [exact X|rewrite P in X; discriminate]. }
  split; [apply (X false)|apply (X true)].
Qed.

(** ** One client at a time *)
Lemma expectation_snoc ops : forall before op, expectation before (ops ++ [op]) = expectation before ops ++ expected (before ++ ops) op.
Proof.
  induction ops as [|o ops IH]; intros before op; cbn [expectation app].
  - rewrite !app_nil_r. reflexivity.
  - rewrite IH, <- !app_assoc. reflexivity.
Qed.
Lemma reports_app a b : reports (a ++ b) = reports a ++ reports b.
Proof. apply flat_map_app. Qed.
Definition calm (ops : list nop) (s : sev) (tr : list nev) : Prop :=
  let flags := forall v, flag v s = conn v (se_sessions s) in
  (se_pending s = [] /\ flags /\ reports tr = expectation [] ops) \/
  (exists i t w, handshakes s = [] /\ se_pending s = [(i, (t, PFlags))] /\ flag (negb w) s = conn (negb w) (se_sessions s) /\
     expectation [] ops = reports tr ++ (if xorb (flag w s) (conn w (se_sessions s)) then [(i, t)] else [])) \/
  (exists i t, handshakes s = [] /\ se_pending s = [(i, (t, PCall))] /\ flags /\ expectation [] ops = reports tr ++ [(i, t)]).
Lemma conn_cons_hand i v w l : conn w ((i, (v, Hand)) :: l) = conn w l.
Proof. unfold conn. cbn. rewrite andb_false_r. reflexivity. Qed.
Lemma conn_other i v w x l : Bool.eqb v w = false -> NoDup (keys l) -> (exists y, aget i l = Some (v, y)) -> conn w (aset i (v, x) l) = conn w l.
Proof.
  intros B N [y G]. apply Bool.eq_iff_eq_true. rewrite (conn_spec w _ N), (conn_spec w _ (nodup_aset i (v, x) l N)). split; intros [j F].
  - rewrite aget_aset in F. destruct (eqb j i) eqn:Q; [|eauto]. injection F as -> _. rewrite Bool.eqb_reflx in B. discriminate.
  - exists j. rewrite aget_aset. destruct (eqb j i) eqn:Q; [|exact F]. apply eqb_true in Q. subst j. rewrite G in F. injection F as -> _.
    rewrite Bool.eqb_reflx in B. discriminate.
Qed.
Lemma negb_ne (v : bool) : Bool.eqb v (negb v) = false.
Proof. destruct v; reflexivity. Qed.
Lemma handshakes_aset s i v x : NoDup (keys (se_sessions s)) -> x <> Hand -> incl (map fst (filter (fun p => match snd (snd p) with Hand => true | _ => false end) (aset i (v, x) (se_sessions s)))) (handshakes s).
Proof.
  intros N X j H. apply in_map_iff in H. destruct H as ([k [w y]] & F & H). cbn in F. subst k. apply filter_In in H. destruct H as [H Q]. cbn in Q.
  destruct y; try discriminate. pose proof (in_aget _ _ _ (nodup_aset i (v, x) _ N) H) as G. rewrite aget_aset in G.
  destruct (eqb j i) eqn:B; [congruence|]. unfold handshakes. change j with (fst (j, (w, Hand))). apply in_map. apply filter_In. split; [apply aget_in; exact G|reflexivity].
Qed.
Lemma handshakes_one s i v : NoDup (keys (se_sessions s)) -> handshakes s = [i] -> forall x, x <> Hand ->
  map fst (filter (fun p => match snd (snd p) with Hand => true | _ => false end) (aset i (v, x) (se_sessions s))) = [].
Proof.
  intros N H x X. match goal with |- ?l = [] => destruct l as [|j l'] eqn:Q; [reflexivity|] end. exfalso.
  assert (Hj : In j (j :: l')) by (left; reflexivity). rewrite <- Q in Hj. pose proof Hj as Hj2.
  apply (handshakes_aset s i v x N X) in Hj. rewrite H in Hj. destruct Hj as [<-|[]].
  apply in_map_iff in Hj2. destruct Hj2 as ([k [w y]] & F & Hj2). cbn in F. subst k. apply filter_In in Hj2. destruct Hj2 as [Hj2 Qy]. cbn in Qy.
  destruct y; try discriminate. pose proof (in_aget _ _ _ (nodup_aset i (v, x) _ N) Hj2) as G. rewrite aget_aset_same in G. congruence.
Qed.
Lemma adel_single (i : nat) (x : etype * epart) : adel i [(i, x)] = [].
Proof. unfold adel. cbn. rewrite eqb_refl. reflexivity. Qed.
Lemma aset_single (i : nat) (x y : etype * epart) : aset i y [(i, x)] = [(i, y)].
Proof. cbn. rewrite eqb_refl. reflexivity. Qed.

Lemma hand_of i v s : aget i (se_sessions s) = Some (v, Hand) -> In i (handshakes s).
Proof. intros G. unfold handshakes. change i with (fst (i, (v, Hand))). apply in_map. apply filter_In. split; [apply aget_in; exact G|reflexivity]. Qed.

Lemma calm_run ops : forall s tr, n_run ops sev0 = Some (s, tr) -> one_at_a_time ops -> (length (handshakes s) <= 1 /\ (se_dead s = false -> calm ops s tr)).
Proof.
  induction ops as [|op ops IH] using rev_ind; intros s' tr E Q.
  - cbn in E. injection E as <- <-. split; [cbn; lia|]. intros _. left. split; [reflexivity|]. split; [intros [|]; reflexivity|reflexivity].
  - pose proof (J_run _ _ _ E) as Hj'. apply n_run_snoc in E. destruct E as (s & t1 & e & A & B & ->).
    assert (Qop := Q ops op [] s t1 eq_refl A). pose proof (J_run _ _ _ A) as Hj.
    destruct (IH s t1 A) as [L C]; [intros o1 o o2 s2 t2 F; apply (Q o1 o (o2 ++ [op])); rewrite F, <- app_assoc; reflexivity|]. clear IH Q.
    pose proof Hj as [_ Ver _ N P Pe].
    unfold n_step in B. destruct (se_dead s) eqn:Dd; [discriminate|]. specialize (C eq_refl).
    unfold calm. rewrite expectation_snoc, reports_app. cbn [app].
    destruct op as [i v|i|i|i|i|i|t cb|t]; cbn [expected]; rewrite ?app_nil_r.
    + destruct Qop as [Qp Qh]. destruct (amem i (se_sessions s)) eqn:G; [discriminate|]. injection B as <- <-. cbn [reports flat_map]. rewrite app_nil_r.
      split; [unfold handshakes; cbn [se_sessions set_sessions filter snd map length]; fold (handshakes s); rewrite Qh; cbn; lia|]. intros _.
      destruct C as [(C1 & C2 & C3)|[(j & t & w & _ & C2 & _)|(j & t & _ & C2 & _)]]; [|rewrite Qp in C2; discriminate|rewrite Qp in C2; discriminate].
      left. split; [exact C1|]. split; [|exact C3]. intros w. cbn [se_sessions set_sessions]. rewrite conn_cons_hand. destruct w; [exact (C2 true)|exact (C2 false)].
    + destruct (aget i (se_sessions s)) as [[v [| |]]|] eqn:G; try discriminate. injection B as <- <-. cbn [reports flat_map]. rewrite app_nil_r.
      pose proof (hand_of _ _ _ G) as Hi. assert (H1 : handshakes s = [i]).
      { destruct (handshakes s) as [|a [|b l]]; [destruct Hi|destruct Hi as [->|[]]; reflexivity|cbn in L; lia]. }
      unfold handshakes. cbn [se_sessions set_sessions set_pending se_pending]. rewrite (handshakes_one s i v N H1 Conn ltac:(discriminate)).
      split; [cbn; lia|]. intros _.
      destruct C as [(C1 & C2 & C3)|[(j & t & w & C1 & _)|(j & t & C1 & _)]]; [|congruence|congruence].
      right; left. exists i, EConn, v. split; [reflexivity|].
      rewrite C1. split; [reflexivity|]. 
      rewrite (conn_other i v (negb v) Conn) by (try apply negb_ne; try exact N; eauto).
      split; [destruct v; [exact (C2 false)|exact (C2 true)]|].
      rewrite C3. f_equal. rewrite (Ver _ _ _ G), (connected_conn _ _ _ Hj).
      replace (conn v (aset i (v, Conn) (se_sessions s))) with true
        by (symmetry; apply conn_spec; [apply nodup_aset, N|exists i; rewrite aget_aset_same; reflexivity]).
      replace (flag v (set_pending _ _)) with (flag v s) by (destruct v; reflexivity). rewrite (C2 v). destruct (conn v (se_sessions s)); reflexivity.
    + destruct (aget i (se_sessions s)) as [[[|] [| |]]|] eqn:G; try discriminate. injection B as <- <-. cbn [reports flat_map]. rewrite app_nil_r.
      pose proof (hand_of _ _ _ G) as Hi. assert (H1 : handshakes s = [i]).
      { destruct (handshakes s) as [|a [|b l]]; [destruct Hi|destruct Hi as [->|[]]; reflexivity|cbn in L; lia]. }
      unfold handshakes at 1. cbn [se_sessions set_sessions set_pending se_pending]. rewrite (handshakes_one s i true N H1 Gone ltac:(discriminate)).
      split; [cbn; lia|]. intros _.
      destruct C as [(C1 & C2 & C3)|[(j & t & w & C1 & _)|(j & t & C1 & _)]]; [|congruence|congruence].
      left. split; [exact C1|]. split; [|exact C3]. intros w.
      replace (conn w (aset i (true, Gone) (se_sessions s))) with (conn w (se_sessions s)); [destruct w; [exact (C2 true)|exact (C2 false)]|].
      apply Bool.eq_iff_eq_true. rewrite (conn_spec w _ N), (conn_spec w _ (nodup_aset i (true, Gone) _ N)). split; intros [j F].
      * exists j. rewrite aget_aset. destruct (eqb j i) eqn:Bq; [apply eqb_true in Bq; subst j; congruence|exact F].
      * exists j. rewrite aget_aset in F. destruct (eqb j i) eqn:Bq; [discriminate|exact F].
    + destruct Qop as [Qp Qh]. destruct (aget i (se_sessions s)) as [[v [| |]]|] eqn:G; try discriminate. destruct (aget i (se_pending s)) eqn:Pn; [discriminate|].
      injection B as <- <-. cbn [reports flat_map]. rewrite app_nil_r.
      assert (H1 : map fst (filter (fun p : nat * (bool * sstate) => match snd (snd p) with Hand => true | _ => false end) (aset i (v, Gone) (se_sessions s))) = []).
      { pose proof (handshakes_aset s i v Gone N ltac:(discriminate)) as I. rewrite Qh in I. destruct (map _ _) as [|a l]; [reflexivity|]. destruct (I a (or_introl eq_refl)). }
      unfold handshakes at 1. cbn [se_sessions set_sessions set_pending se_pending]. rewrite H1. split; [cbn; lia|]. intros _.
      destruct C as [(C1 & C2 & C3)|[(j & t & w & _ & C2 & _)|(j & t & _ & C2 & _)]]; [|congruence|congruence].
      right; left. exists i, EDisc, v. split; [exact H1|]. rewrite C1. split; [reflexivity|].
      rewrite (conn_other i v (negb v) Gone) by (try apply negb_ne; try exact N; eauto).
      split; [destruct v; [exact (C2 false)|exact (C2 true)]|]. rewrite C3. f_equal. rewrite (Ver _ _ _ G), (connected_conn _ _ v Hj').
      cbn [se_sessions set_sessions set_pending].
      replace (flag v (set_pending _ _)) with (flag v s) by (destruct v; reflexivity). rewrite (C2 v).
      replace (conn v (se_sessions s)) with true by (symmetry; apply conn_spec; eauto). destruct (conn v _); reflexivity.
    + destruct (aget i (se_pending s)) as [[t [|]]|] eqn:G; try discriminate. injection B as <- <-. cbn [reports flat_map]. rewrite app_nil_r.
      split; [exact L|]. intros _.
      destruct C as [(C1 & C2 & C3)|[(j & t' & w & C1 & C2 & C3 & C4)|(j & t' & C1 & C2 & _)]].
      * rewrite C1 in G. discriminate.
      * rewrite C2 in G. cbn in G. destruct (eqb i j) eqn:Bq; [|discriminate]. apply eqb_true in Bq. subst j. injection G as ->.
        cbn [se_pending se_sessions]. rewrite C2. idtac. rewrite aset_single, adel_single, !(alive_conn s) by assumption.
        assert (X : (xorb (se_v0 s) (conn false (se_sessions s)) || xorb (se_v1 s) (conn true (se_sessions s)))%bool = xorb (flag w s) (conn w (se_sessions s))).
        { destruct w; cbn [flag negb] in *; rewrite C3, xorb_nilpotent; [reflexivity|apply orb_false_r]. }
        rewrite X, C4. destruct (xorb (flag w s) (conn w (se_sessions s))).
        -- right; right. exists i, t. split; [exact C1|]. split; [reflexivity|]. split; [intros [|]; reflexivity|reflexivity].
        -- left. split; [reflexivity|]. split; [intros [|]; reflexivity|]. rewrite app_nil_r. reflexivity.
      * rewrite C2 in G. cbn in G. destruct (eqb i j); discriminate.
    + destruct (aget i (se_pending s)) as [[t [|]]|] eqn:G; try discriminate.
      destruct C as [(C1 & _)|[(j & t' & w & C1 & C2 & C3 & C4)|(j & t' & C1 & C2 & C3 & C4)]].
      * rewrite C1 in G. discriminate.
      * rewrite C2 in G. cbn in G. destruct (eqb i j); discriminate.
      * rewrite C2 in G. cbn in G. destruct (eqb i j) eqn:Bq; [|discriminate]. apply eqb_true in Bq. subst j. injection G as ->.
        destruct (callback_of t s) as [[cb|]|]; injection B as <- <-.
        -- split; [exact L|]. intros _. left. cbn [se_pending set_pending]. rewrite C2, adel_single. split; [reflexivity|]. split; [intros [|]; [exact (C3 true)|exact (C3 false)]|].
           rewrite C4. reflexivity.
        -- split; [exact L|]. discriminate.
        -- split; [exact L|]. intros _. left. cbn [se_pending set_pending]. rewrite C2, adel_single. split; [reflexivity|]. split; [intros [|]; [exact (C3 true)|exact (C3 false)]|].
           rewrite C4. reflexivity.
    + injection B as <- <-. cbn [reports flat_map]. rewrite app_nil_r. destruct t; (split; [exact L|]; intros _; exact C).
    + injection B as <- <-. cbn [reports flat_map]. rewrite app_nil_r. destruct t; (split; [exact L|]; intros _; exact C).
Qed.
Lemma serial_lemma ops s tr : n_run ops sev0 = Some (s, tr) -> one_at_a_time ops -> se_dead s = false -> se_pending s = [] ->
  reports tr = expectation [] ops /\ se_v0 s = connected ops false /\ se_v1 s = connected ops true.
Proof.
  intros E O D P. destruct (calm_run ops s tr E O) as [_ C]. specialize (C D). pose proof (J_run _ _ _ E) as Hj.
  destruct C as [(C1 & C2 & C3)|[(j & t' & w & C1 & C2 & C3 & C4)|(j & t' & C1 & C2 & C3 & C4)]]; try (rewrite P in C2; discriminate).
  rewrite !(connected_conn _ _ _ Hj). split; [exact C3|]. split; [exact (C2 false)|exact (C2 true)].
Qed.

(** ** Callbacks *)
Lemma installed_snoc ops op t : installed (ops ++ [op]) t =
  match op with
  | NAdd t' cb => match t, t' with EConn, EConn | EDisc, EDisc => Some (Some cb) | _, _ => installed ops t end
  | NRem t' => match t, t' with EConn, EConn | EDisc, EDisc => Some None | _, _ => installed ops t end
  | _ => installed ops t
  end.
Proof. unfold installed. rewrite fold_left_app. reflexivity. Qed.
Lemma callback_run ops : forall s tr, n_run ops sev0 = Some (s, tr) -> forall t, callback_of t s = installed ops t.
Proof.
  induction ops as [|op ops IH] using rev_ind; intros s' tr E t.
  - cbn in E. injection E as <- <-. destruct t; reflexivity.
  - apply n_run_snoc in E. destruct E as (s & t1 & e & A & B & ->). specialize (IH s t1 A). rewrite installed_snoc, <- IH.
    unfold n_step in B. destruct (se_dead s); [discriminate|].
    destruct op as [i v|i|i|i|i|i|t' cb|t'].
    + destruct (amem i (se_sessions s)); [discriminate|]. injection B as <- <-. destruct t; reflexivity.
    + destruct (aget i (se_sessions s)) as [[v [| |]]|]; try discriminate. injection B as <- <-. destruct t; reflexivity.
    + destruct (aget i (se_sessions s)) as [[[|] [| |]]|]; try discriminate. injection B as <- <-. destruct t; reflexivity.
    + destruct (aget i (se_sessions s)) as [[v [| |]]|]; try discriminate. destruct (aget i (se_pending s)); [discriminate|]. injection B as <- <-. destruct t; reflexivity.
    + destruct (aget i (se_pending s)) as [[t' [|]]|]; try discriminate. injection B as <- <-. destruct t; reflexivity.
    + destruct (aget i (se_pending s)) as [[t' [|]]|]; try discriminate. destruct (callback_of t' s) as [[cb|]|]; injection B as <- <-; destruct t; reflexivity.
    + injection B as <- <-. destruct t, t'; reflexivity.
    + injection B as <- <-. destruct t, t'; reflexivity.
Qed.
Lemma events_lemma ops op s tr s' e : n_run ops sev0 = Some (s, tr) -> n_step op s = Some (s', e) ->
  match e with
  | [] => se_dead s' = false
  | [NEvent i t c] => installed ops t = match c with Some cb => Some (Some cb) | None => None end /\ se_dead s' = false
  | [NTerminate i] => (exists t, installed ops t = Some None) /\ se_dead s' = true
  | _ => False
  end.
Proof.
  intros A B. pose proof (callback_run _ _ _ A) as C. unfold n_step in B. destruct (se_dead s) eqn:D; [discriminate|].
  destruct op as [i v|i|i|i|i|i|t' cb|t'].
  - destruct (amem i (se_sessions s)); [discriminate|]. injection B as <- <-. exact D.
  - destruct (aget i (se_sessions s)) as [[v [| |]]|]; try discriminate. injection B as <- <-. exact D.
  - destruct (aget i (se_sessions s)) as [[[|] [| |]]|]; try discriminate. injection B as <- <-. exact D.
  - destruct (aget i (se_sessions s)) as [[v [| |]]|]; try discriminate. destruct (aget i (se_pending s)); [discriminate|]. injection B as <- <-. exact D.
  - destruct (aget i (se_pending s)) as [[t' [|]]|]; try discriminate. injection B as <- <-. reflexivity.
  - destruct (aget i (se_pending s)) as [[t' [|]]|]; try discriminate. specialize (C t'). destruct (callback_of t' s) as [[cb|]|]; injection B as <- <-.
    + split; [symmetry; exact C|exact D].
    + split; [exists t'; symmetry; exact C|reflexivity].
    + split; [symmetry; exact C|exact D].
  - injection B as <- <-. destruct t'; exact D.
  - injection B as <- <-. destruct t'; exact D.
Qed.
Lemma installed_some_none ops t : (forall t', ~ In (NRem t') ops) -> installed ops t <> Some None.
Proof.
  induction ops as [|op ops IH] using rev_ind; intros R; [discriminate|]. rewrite installed_snoc.
  specialize (IH ltac:(intros t' H; apply (R t'), in_or_app; auto)).
  destruct op; try exact IH.
  - destruct t, t0; try exact IH; discriminate.
  - destruct (R t0). apply in_or_app. right. left. reflexivity.
Qed.
Lemma survives_lemma ops : forall s tr, n_run ops sev0 = Some (s, tr) -> (forall t, ~ In (NRem t) ops) -> se_dead s = false.
Proof.
  induction ops as [|op ops IH] using rev_ind; intros s' tr E R.
  - cbn in E. injection E as <- <-. reflexivity.
  - apply n_run_snoc in E. destruct E as (s & t1 & e & A & B & ->). pose proof (events_lemma _ _ _ _ _ _ A B) as X.
    destruct e as [|[i t c|i] [|]]; try exact X; try destruct X as [X1 X2]; try assumption; try (destruct X).
    destruct X1 as [t Xt]. exfalso. apply (installed_some_none ops t); [|exact Xt]. intros t' H. apply (R t'), in_or_app. auto.
Qed.

(** ** Progress *)
Definition load (l : list (nat * (etype * epart))) : nat := list_sum (map (fun p => match snd (snd p) with PFlags => 2 | PCall => 1 end) l).
Lemma load_cons p l : load (p :: l) = (match snd (snd p) with PFlags => 2 | PCall => 1 end) + load l.
Proof. reflexivity. Qed.
Lemma load_adel_le k l : load (adel k l) <= load l.
Proof. induction l as [|p l IH]; [reflexivity|]. unfold adel in *. cbn [filter]. destruct (negb (eqb k (fst p))); rewrite ?load_cons; lia. Qed.
Lemma load_adel k x l : aget k l = Some x -> load (adel k l) < load l.
Proof.
  induction l as [|[k' j'] l IH]; cbn [aget]; [discriminate|]. unfold adel in *. cbn [filter fst]. destruct (eqb k k'); cbn [negb].
  - intros _. rewrite load_cons. pose proof (load_adel_le k l) as L. unfold adel in L. destruct (snd (snd (k', j'))); lia.
  - intros G. specialize (IH G). rewrite !load_cons. lia.
Qed.
Lemma load_aset k t l : aget k l = Some (t, PFlags) -> load (aset k (t, PCall) l) < load l.
Proof.
  induction l as [|[k' j'] l IH]; cbn [aget aset]; [discriminate|]. destruct (eqb k k').
  - intros G. injection G as ->. rewrite !load_cons. cbn. lia.
  - intros G. specialize (IH G). rewrite !load_cons. lia.
Qed.
Lemma settle_lemma ops s tr : n_run ops sev0 = Some (s, tr) -> (forall t, ~ In (NRem t) ops) ->
  exists ops' s' tr', forallb (fun op => match op with NFlags _ | NCall _ => true | _ => false end) ops' = true /\
    n_run (ops ++ ops') sev0 = Some (s', tr ++ tr') /\ se_pending s' = [].
Proof.
  remember (load (se_pending s)) as n eqn:Hn. revert ops s tr Hn. induction n as [n IH] using lt_wf_ind. intros ops s tr Hn E R.
  destruct (se_pending s) as [|[i [t p]] l] eqn:P.
  - exists [], s, []. rewrite !app_nil_r. auto.
  - assert (G : aget i (se_pending s) = Some (t, p)) by (rewrite P; cbn; rewrite eqb_refl; reflexivity). rewrite <- P in Hn.
    assert (D := survives_lemma _ _ _ E R).
    assert (X : exists op s1 e, match op with NFlags _ | NCall _ => true | _ => false end = true /\ n_step op s = Some (s1, e) /\ load (se_pending s1) < load (se_pending s)).
    { destruct p.
      - exists (NFlags i). unfold n_step. rewrite D, G. do 2 eexists. split; [reflexivity|]. split; [reflexivity|]. cbn [se_pending].
        destruct (_ || _)%bool; [apply load_aset, G|eapply load_adel, G].
      - exists (NCall i). unfold n_step. rewrite D, G. destruct (callback_of t s) as [[cb|]|]; do 2 eexists; (split; [reflexivity|]); (split; [reflexivity|]); cbn [se_pending set_pending]; eapply load_adel, G. }
    destruct X as (op & s1 & e & W & Es & L).
    assert (E1 : n_run (ops ++ [op]) sev0 = Some (s1, tr ++ e)).
    { apply (n_run_join ops [op] _ s tr s1 e E). cbn. rewrite Es, app_nil_r. reflexivity. }
    destruct (IH (load (se_pending s1)) ltac:(lia) (ops ++ [op]) s1 (tr ++ e) eq_refl E1) as (o' & s' & t' & F & Rn & V).
    { intros t2 H. apply in_app_or in H. destruct H as [H|[->|[]]]; [apply (R t2 H)|discriminate]. }
    exists (op :: o'), s', (e ++ t'). split; [cbn; rewrite W; exact F|]. split; [|exact V]. rewrite <- !app_assoc in Rn. exact Rn.
Qed.

(** ** Runs that go wrong *)
Definition stuck_run : list nop := [NAdd EConn 1; NAdd EDisc 2; NAccept 1 true; NConnect 1; NFlags 1; NCall 1; NAccept 2 true; NLost 1; NFlags 1; NRefuse 2].
Lemma stuck_refuted : exists s, n_run stuck_run sev0 = Some (s, [NEvent 1 EConn (Some 1)]) /\
  se_pending s = [] /\ handshakes s = [] /\ connected stuck_run true = false /\ se_v1 s = true /\ is_connected s = false.
Proof. eexists. split; [vm_compute; reflexivity|]. repeat split. Qed.
(** ... and the next client is not reported. *)
Lemma stuck_next_refuted : exists s, n_run (stuck_run ++ [NAccept 3 true; NConnect 3; NFlags 3]) sev0 = Some (s, [NEvent 1 EConn (Some 1)]) /\
  se_pending s = [] /\ expectation [] (stuck_run ++ [NAccept 3 true; NConnect 3; NFlags 3]) = [(1, EConn); (1, EDisc); (3, EConn)].
Proof. eexists. split; [vm_compute; reflexivity|]. repeat split. Qed.
Definition mixed_run : list nop := [NAdd EConn 1; NAdd EDisc 2; NAccept 1 false; NConnect 1; NFlags 1; NCall 1; NAccept 2 false; NConnect 2; NFlags 2; NAccept 3 true; NLost 2; NFlags 2; NCall 2; NConnect 3; NFlags 3].
Lemma wrong_type_refuted : exists s, n_run mixed_run sev0 = Some (s, [NEvent 1 EConn (Some 1); NEvent 2 EDisc (Some 2)]) /\ se_pending s = [] /\
  expectation [] mixed_run = [(1, EConn); (3, EConn)].
Proof. eexists. split; [vm_compute; reflexivity|]. repeat split. Qed.
Definition swapped_run : list nop := [NAdd EConn 1; NAdd EDisc 2; NAccept 1 true; NConnect 1; NFlags 1; NCall 1; NLost 1; NFlags 1; NAccept 2 true; NConnect 2; NFlags 2; NCall 2; NCall 1].
Lemma swapped_refuted : exists s, n_run swapped_run sev0 = Some (s, [NEvent 1 EConn (Some 1); NEvent 2 EConn (Some 1); NEvent 1 EDisc (Some 2)]) /\
  se_pending s = [] /\ connected swapped_run true = true.
Proof. eexists. split; [vm_compute; reflexivity|]. repeat split. Qed.
Lemma handshake_connected_refuted : exists s, n_run [NAccept 1 true] sev0 = Some (s, []) /\ is_connected s = true /\
  connected [NAccept 1 true] false = false /\ connected [NAccept 1 true] true = false.
Proof. eexists. split; [vm_compute; reflexivity|]. repeat split. Qed.
Lemma removed_terminates : exists s, n_run [NAdd EConn 1; NRem EConn; NAccept 1 true; NConnect 1; NFlags 1; NCall 1] sev0 = Some (s, [NTerminate 1]) /\ se_dead s = true.
Proof. eexists. split; vm_compute; reflexivity. Qed.

Lemma is_connected_lemma ops s tr : n_run ops sev0 = Some (s, tr) -> handshakes s = [] ->
  is_connected s = true <-> exists i, In i (clients ops).
Proof.
  intros E H. pose proof (J_run _ _ _ E) as Hj. unfold is_connected. rewrite !(alive_conn s _ (j_nd _ _ Hj) H), orb_true_iff, !(conn_spec _ _ (j_nd _ _ Hj)). split.
  - intros [[i G]|[i G]]; exists i; apply (j_cl _ _ Hj); eauto.
  - intros [i G]. apply (j_cl _ _ Hj) in G as [[] G]; eauto.
Qed.
