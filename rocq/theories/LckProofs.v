(** * Lck: proofs *)

From Coq Require Import List Bool Arith Lia.
From Verif Require Import Base LckModel LckSpec.
Import ListNotations.

(** ** Nesting *)

(** [R l m]: with the marks [l], lock [m] may be taken. *)
Fixpoint nest (R : list mark -> lck -> Prop) (l : list mark) (p : list ins) : Prop :=
  match p with
  | [] => l = []
  | Take m :: p' => R l m /\ nest R (Held m true :: l) p'
  | Share m :: p' => R l m /\ nest R (Held m false :: l) p'
  | Drop m :: p' => exists e l', l = Held m e :: l' /\ nest R l' p'
  | Enter c :: p' => (exists l', l = Held (guard c) true :: l') /\ nest R (In_ c :: l) p'
  | Leave c :: p' => exists l', l = In_ c :: l' /\ nest R l' p'
  end.

Fixpoint tree_ok (R : list mark -> lck -> Prop) (l : list mark) (b : blk) : Prop :=
  match b with
  | Skip => True
  | Seq a b' => tree_ok R l a /\ tree_ok R l b'
  | With m e body => R l m /\ tree_ok R (Held m e :: l) body
  | Hole _ => True
  | Inside c body => (exists l', l = Held (guard c) true :: l') /\ tree_ok R (In_ c :: l) body
  end.

Lemma flat_nest : forall R b l rest, tree_ok R l b -> nest R l rest -> nest R l (flat b ++ rest).
Proof.
  intros R b. induction b as [|a IHa b IHb|m e b IH|c|c b IH]; cbn [flat tree_ok]; intros l rest T N.
  - exact N.
  - destruct T as [T1 T2]. rewrite <- app_assoc. apply IHa; auto.
  - destruct T as [T1 T2].
    assert (H : nest R (Held m e :: l) (flat b ++ Drop m :: rest)).
    { apply IH; [exact T2|]. cbn. exists e, l. auto. }
    rewrite <- app_comm_cons, <- app_assoc. cbn [app]. destruct e; cbn; auto.
  - exact N.
  - destruct T as [T1 T2]. rewrite <- app_comm_cons, <- app_assoc. cbn [app nest]. split; [exact T1|].
    apply IH; [exact T2|]. cbn. exists l. auto.
Qed.

(** One step keeps the nesting. *)
Lemma nest_step : forall R i p l, nest R l (i :: p) -> nest R (exec i l) p.
Proof.
  intros R i p l H. destruct i as [m|m|m|c|c]; cbn in H |- *.
  - apply H.
  - apply H.
  - destruct H as (e & l' & -> & H). cbn. rewrite eqb_refl. exact H.
  - apply H.
  - destruct H as (l' & -> & H). cbn. rewrite eqb_refl. exact H.
Qed.

(** ** Lists of threads *)
Lemma put_forall : forall (P : thr -> Prop) n t s, Forall P s -> P t -> Forall P (put n t s).
Proof.
  intros P n t s. revert n. induction s as [|t' s IH]; intros n F H; cbn; [constructor|].
  inversion F; subst. destruct n; constructor; auto.
Qed.

Lemma put_nth : forall n t s k, n < length s ->
  nth_error (put n t s) k = if Nat.eqb k n then Some t else nth_error s k.
Proof.
  intros n t s. revert n. induction s as [|t' s IH]; intros n k L; cbn in *; [lia|].
  destruct n; destruct k; cbn; auto. apply IH. lia.
Qed.

Lemma step_inv : forall wf n s s', step wf n s = Some s' ->
  exists t i rest, nth_error s n = Some t /\ todo t = i :: rest /\ can wf s i = true /\
    s' = put n {| todo := rest; has := exec i (has t) |} s.
Proof.
  intros wf n s s' H. unfold step in H. destruct (nth_error s n) as [t|] eqn:E; [|discriminate].
  destruct (todo t) as [|i rest] eqn:T; [discriminate|].
  destruct (can wf s i) eqn:C; [|discriminate]. injection H as <-. exists t, i, rest. auto.
Qed.

Lemma forall_nth : forall (P : thr -> Prop) s n t, Forall P s -> nth_error s n = Some t -> P t.
Proof. intros P s n t F H. rewrite Forall_forall in F. apply F. eapply nth_error_In; eauto. Qed.

Section Nesting.
  Variable R : list mark -> lck -> Prop.
  Variable ok : work -> Prop.
  Hypothesis ok_tree : forall w, ok w -> tree_ok R [] (work_blk w).

  Definition nested (t : thr) : Prop := nest R (has t) (todo t).

  Lemma nested_step : forall wf n s s', Forall nested s -> step wf n s = Some s' -> Forall nested s'.
  Proof.
    intros wf n s s' F H. apply step_inv in H. destruct H as (t & i & rest & E & T & C & ->).
    apply put_forall; [exact F|]. unfold nested. cbn. apply nest_step.
    rewrite <- T. exact (forall_nth _ _ _ _ F E).
  Qed.

  Lemma program_nest : forall l, Forall ok l -> nest R [] (program l).
  Proof.
    intros l F. unfold program. rewrite <- (app_nil_r (flat _)). apply flat_nest; [|reflexivity].
    induction F as [|w l Hw F IH]; cbn; auto.
  Qed.

  Lemma nested_run : forall wf es, (forall l, In (Spawn l) es -> Forall ok l) -> Forall nested (run wf es).
  Proof.
    intros wf es. unfold run. assert (G : Forall nested []) by constructor. revert G.
    generalize (@nil thr). induction es as [|e es IH]; intros s F K; cbn; [exact F|].
    apply IH.
    - destruct e as [n|l]; cbn.
      + destruct (step wf n s) as [s'|] eqn:E; [|exact F]. eapply nested_step; eauto.
      + apply Forall_app. split; [exact F|]. constructor; [|constructor].
        unfold nested. cbn. apply program_nest. apply K. left. reflexivity.
    - intros l Hl. apply K. right. exact Hl.
  Qed.
End Nesting.

(** ** Locks exclude each other *)

(** Exclusive means alone. *)
Definition exclusive (s : sys) : Prop :=
  forall i j a b m e, nth_error s i = Some a -> nth_error s j = Some b -> i <> j ->
    In (Held m true) (has a) -> In (Held m e) (has b) -> False.

Lemma holds_in : forall m t, holds m t = true <-> exists e, In (Held m e) (has t).
Proof.
  intros m t. unfold holds. rewrite existsb_exists. split.
  - intros (k & I & H). destruct k as [m' e|c]; [|discriminate]. apply eqb_true in H. subst m'. exists e. exact I.
  - intros (e & I). exists (Held m e). split; [exact I|]. apply eqb_refl.
Qed.

Lemma holds_ex_in : forall m t, holds_ex m t = true <-> In (Held m true) (has t).
Proof.
  intros m t. unfold holds_ex. rewrite existsb_exists. split.
  - intros (k & I & H). destruct k as [m' e|c]; [|discriminate]. apply andb_true_iff in H.
    destruct H as [H ->]. apply eqb_true in H. subst m'. exact I.
  - intro I. exists (Held m true). split; [exact I|]. rewrite eqb_refl. reflexivity.
Qed.

Lemma exec_in : forall i l m e, In (Held m e) (exec i l) ->
  In (Held m e) l \/ (e = true /\ i = Take m) \/ (e = false /\ i = Share m).
Proof.
  intros i l m e. destruct i as [m'|m'|m'|c|c]; cbn.
  - intros [H|H]; [injection H as -> <-; auto|auto].
  - intros [H|H]; [injection H as -> <-; auto|auto].
  - intro H. left. induction l as [|k l IH]; [exact H|]. cbn in H. destruct k as [m2 e2|c2].
    + destruct (eqb m2 m'); [right; exact H|]. destruct H as [H|H]; [left; exact H|right; auto].
    + destruct H as [H|H]; [discriminate|right; auto].
  - intros [H|H]; [discriminate|auto].
  - intro H. left. induction l as [|k l IH]; [exact H|]. cbn in H. destruct k as [m2 e2|c2].
    + destruct H as [H|H]; [left; exact H|right; auto].
    + destruct (eqb c2 c); [right; exact H|]. destruct H as [H|H]; [discriminate|right; auto].
Qed.

Lemma exclusive_step : forall wf n s s', exclusive s -> step wf n s = Some s' -> exclusive s'.
Proof.
  intros wf n s s' X H. apply step_inv in H. destruct H as (t & i & rest & E & T & C & ->).
  assert (L : n < length s) by (apply nth_error_Some; rewrite E; discriminate).
  intros a b ta tb m e Ea Eb D Ia Ib. rewrite put_nth in Ea, Eb by exact L.
  destruct (Nat.eqb a n) eqn:An; destruct (Nat.eqb b n) eqn:Bn.
  - apply Nat.eqb_eq in An, Bn. congruence.
  - apply Nat.eqb_eq in An. subst a. injection Ea as <-. cbn in Ia.
    apply exec_in in Ia. destruct Ia as [Ia|[[_ ->]|[Q _]]]; [|clear D|discriminate].
    + exact (X _ _ _ _ _ _ E Eb D Ia Ib).
    + cbn in C. apply negb_true_iff in C.
      assert (existsb (holds m) s = true); [|congruence].
      apply existsb_exists. exists tb. split; [eapply nth_error_In; eauto|]. apply holds_in. eauto.
  - apply Nat.eqb_eq in Bn. subst b. injection Eb as <-. cbn in Ib.
    apply exec_in in Ib. destruct Ib as [Ib|[[-> ->]|[-> ->]]].
    + exact (X _ _ _ _ _ _ Ea E D Ia Ib).
    + cbn in C. apply negb_true_iff in C.
      assert (existsb (holds m) s = true); [|congruence].
      apply existsb_exists. exists ta. split; [eapply nth_error_In; eauto|]. apply holds_in. eauto.
    + cbn in C. apply andb_true_iff in C. destruct C as [C _]. apply negb_true_iff in C.
      assert (existsb (holds_ex m) s = true); [|congruence].
      apply existsb_exists. exists ta. split; [eapply nth_error_In; eauto|]. apply holds_ex_in. exact Ia.
  - exact (X _ _ _ _ _ _ Ea Eb D Ia Ib).
Qed.

Lemma exclusive_run : forall wf es, exclusive (run wf es).
Proof.
  intros wf es. unfold run. assert (G : exclusive []) by (intros [|i] j a b m e H; discriminate).
  revert G. generalize (@nil thr). induction es as [|e es IH]; intros s X; cbn; [exact X|].
  apply IH. destruct e as [n|l]; cbn.
  - destruct (step wf n s) as [s'|] eqn:E; [|exact X]. eapply exclusive_step; eauto.
  - intros i j a b m e Ha Hb D Ia Ib.
    destruct (Nat.lt_ge_cases i (length s)) as [Li|Li].
    + destruct (Nat.lt_ge_cases j (length s)) as [Lj|Lj].
      * rewrite nth_error_app1 in Ha, Hb by assumption. exact (X _ _ _ _ _ _ Ha Hb D Ia Ib).
      * rewrite nth_error_app2 in Hb by assumption.
        destruct (j - length s) as [|k]; cbn in Hb; [injection Hb as <-; destruct Ib|destruct k; discriminate].
    + rewrite nth_error_app2 in Ha by assumption.
      destruct (i - length s) as [|k]; cbn in Ha; [injection Ha as <-; destruct Ia|destruct k; discriminate].
Qed.

(** ** Callbacks run under their lock *)

Definition any : list mark -> lck -> Prop := fun _ _ => True.

(** Innermost lock. *)
Fixpoint guarded (top : option lck) (b : blk) : Prop :=
  match b with
  | Skip => True
  | Seq a b' => guarded top a /\ guarded top b'
  | With m e body => guarded (if e then Some m else None) body
  | Hole c => top = Some (guard c)
  | Inside _ _ => False
  end.

Definition tops (top : option lck) (l : list mark) : Prop :=
  match top with
  | Some m => exists l', l = Held m true :: l'
  | None => True
  end.

Fixpoint plain (b : blk) : Prop :=
  match b with
  | Skip => True
  | Seq a b' => plain a /\ plain b'
  | With _ _ body => plain body
  | Hole _ | Inside _ _ => False
  end.

Lemma plain_seqs : forall (X : Type) (f : X -> blk) l, (forall x, plain (f x)) -> plain (seqs (map f l)).
Proof. intros X f l H. induction l; cbn; auto. Qed.

Lemma call_plain : forall c, plain (call_blk c).
Proof.
  intro c. destruct c; cbn; auto 20.
  - destruct subscribed; cbn; auto 20. destruct grow; cbn; auto 20.
  - repeat split; apply plain_seqs; intro x; cbn; auto 20.
Qed.

Lemma plain_any : forall b l, plain b -> tree_ok any l b.
Proof.
  intros b. induction b as [|a IHa b IHb|m e b IH|c|c b IH]; cbn; intros l P; auto; try contradiction.
  - destruct P; auto.
  - split; [exact Logic.I|]. apply IH; auto.
Qed.

Lemma guarded_seqs : forall (X : Type) (f : X -> blk) top l,
  (forall x, guarded top (f x)) -> guarded top (seqs (map f l)).
Proof. intros X f top l H. induction l; cbn; auto. Qed.

Lemma job_guarded : forall j, guarded None (job_blk j).
Proof.
  intro j. destruct j; cbn; repeat (split; auto);
    try (destruct user; cbn; auto; fail);
    try (apply guarded_seqs; intro x).
  - split.
    + split; [|cbn; auto]. unfold reader_apply_layers. cbn. induction (rm_files x); cbn; auto.
    + destruct (rm_conf x); cbn; auto. destruct (rm_new x), (rm_cb x); cbn; auto.
  - cbn. auto.
  - cbn. destruct (wm_new x), (wm_cb x), (wm_start x); cbn; repeat split.
  - cbn. auto 10.
  - destruct x as [r f]. destruct f; cbn; auto.
  - destruct x as [r f]. destruct f; cbn; auto.
  - destruct x as [r [d b]]. destruct d, b; cbn; auto 10.
Qed.

Lemma fill_tree : forall b top l beh, guarded top b -> tops top l -> tree_ok any l (fst (fill b beh)).
Proof.
  intros b. induction b as [|a IHa b IHb|m e b IH|c|c b IH]; cbn; intros top l beh G K.
  - exact Logic.I.
  - destruct G as [G1 G2]. destruct (fill a beh) as [a1 beh1] eqn:F1.
    destruct (fill b beh1) as [b1 beh2] eqn:F2. cbn. split.
    + specialize (IHa top l beh G1 K). rewrite F1 in IHa. exact IHa.
    + specialize (IHb top l beh1 G2 K). rewrite F2 in IHb. exact IHb.
  - destruct (fill b beh) as [b1 beh1] eqn:F. cbn. split; [exact Logic.I|].
    specialize (IH (if e then Some m else None) (Held m e :: l) beh G). rewrite F in IH. apply IH.
    destruct e; cbn; eauto.
  - subst top. cbn in K. destruct beh as [|ks beh]; cbn; (split; [exact K|]); [exact Logic.I|].
    apply plain_any. apply plain_seqs. exact call_plain.
  - contradiction.
Qed.

Lemma work_any : forall w, tree_ok any [] (work_blk w).
Proof.
  intros [c|j beh]; cbn.
  - apply plain_any. apply call_plain.
  - eapply fill_tree; [apply job_guarded|exact Logic.I].
Qed.

(** Whoever is inside a callback holds its lock. *)
Definition covered (l : list mark) : Prop := forall c, In (In_ c) l -> In (Held (guard c) true) l.

Lemma nest_covered_step : forall R i p l,
  (forall l1 l2, l = l1 ++ l2 -> covered l2) -> nest R l (i :: p) ->
  forall l1 l2, exec i l = l1 ++ l2 -> covered l2.
Proof.
  assert (W : forall (k : mark) (l l1 l2 : list mark), k :: l = l1 ++ l2 -> l2 = k :: l \/ exists l1', l = l1' ++ l2).
  { intros k l [|k' l1] l2 H; cbn in H; [left; congruence|right]. injection H as -> ->. eauto. }
  intros R i p l K N l1 l2 H. destruct i as [m|m|m|c|c]; cbn in N, H.
  - destruct (W _ _ _ _ H) as [->|[l1' E]]; [|eapply K; eauto].
    intros c [Q|Q]; [discriminate|]. right. apply (K [] l eq_refl). exact Q.
  - destruct (W _ _ _ _ H) as [->|[l1' E]]; [|eapply K; eauto].
    intros c [Q|Q]; [discriminate|]. right. apply (K [] l eq_refl). exact Q.
  - destruct N as (e & l' & -> & N). cbn in H. rewrite eqb_refl in H. subst l'.
    apply (K (Held m e :: l1) l2). reflexivity.
  - destruct N as [(l' & ->) N]. destruct (W _ _ _ _ H) as [->|[l1' E]]; [|eapply K; eauto].
    intros c' [Q|Q].
    + injection Q as ->. right. left. reflexivity.
    + right. apply (K [] _ eq_refl). exact Q.
  - destruct N as (l' & -> & N). cbn in H. rewrite eqb_refl in H. subst l'.
    apply (K (In_ c :: l1) l2). reflexivity.
Qed.

Definition suffixes_covered (t : thr) : Prop := forall l1 l2, has t = l1 ++ l2 -> covered l2.

Lemma covered_run : forall wf es,
  Forall (fun t => nested any t /\ suffixes_covered t) (run wf es).
Proof.
  intros wf es. unfold run.
  assert (G : Forall (fun t => nested any t /\ suffixes_covered t) []) by constructor. revert G.
  generalize (@nil thr). induction es as [|e es IH]; intros s F; cbn; [exact F|].
  apply IH. destruct e as [n|l]; cbn.
  - destruct (step wf n s) as [s'|] eqn:E; [|exact F].
    apply step_inv in E. destruct E as (t & i & rest & E & T & C & ->).
    apply put_forall; [exact F|]. destruct (forall_nth _ _ _ _ F E) as [N K].
    unfold nested in N. rewrite T in N. split.
    + unfold nested. cbn. apply nest_step. exact N.
    + unfold suffixes_covered. cbn. eapply nest_covered_step; eauto.
  - apply Forall_app. split; [exact F|]. constructor; [|constructor]. split.
    + unfold nested. cbn. apply (program_nest any (fun _ => True)); [intros w _; apply work_any|].
      clear. induction l; constructor; auto.
    + intros l1 l2 H c I. cbn in H. symmetry in H. apply app_eq_nil in H. destruct H as [_ ->]. destruct I.
Qed.

Lemma serial_lemma : forall wf es i j a b c c',
  nth_error (run wf es) i = Some a -> nth_error (run wf es) j = Some b -> i <> j ->
  inside c a -> inside c' b -> guard c <> guard c'.
Proof.
  intros wf es i j a b c c' Ha Hb D Ia Ib G. pose proof (covered_run wf es) as F.
  destruct (forall_nth _ _ _ _ F Ha) as [_ Ka]. destruct (forall_nth _ _ _ _ F Hb) as [_ Kb].
  apply (Ka [] (has a) eq_refl) in Ia. apply (Kb [] (has b) eq_refl) in Ib. rewrite <- G in Ib.
  exact (exclusive_run wf es _ _ _ _ _ _ Ha Hb D Ia Ib).
Qed.

Lemma between_lemma : forall wf es i j a b m c,
  nth_error (run wf es) i = Some a -> nth_error (run wf es) j = Some b -> i <> j ->
  In (Held m true) (has a) -> guard c = m -> ~ inside c b.
Proof.
  intros wf es i j a b m c Ha Hb D Ia G Ib. pose proof (covered_run wf es) as F.
  destruct (forall_nth _ _ _ _ F Hb) as [_ Kb].
  apply (Kb [] (has b) eq_refl) in Ib. rewrite G in Ib.
  exact (exclusive_run wf es _ _ _ _ _ _ Ha Hb D Ia Ib).
Qed.

(** ** Ranks *)
Definition rk (p : plan) (m : lck) : nat :=
  match m with
  | LSend | LRecv => 1
  | LAppl => 2
  | LSubGate => match p with SubsUsePubs => 20 | PubsUseSubs => 30 | WithFinalize => 8 end
  | LPubGate => match p with PubsUseSubs => 20 | _ => 30 end
  | LRcv _ => 10
  | LPm _ => match p with PubsUseSubs => 31 | _ => 21 end
  | LREv _ => match p with PubsUseSubs => 32 | _ => 22 end
  | LSm _ => match p with PubsUseSubs => 21 | _ => 31 end
  | LWEv _ => match p with PubsUseSubs => 22 | _ => 32 end
  | LRFr _ | LWFr _ => 40
  | LBuf _ => 41
  | LPool => 42
  | LTcp => 43
  | LMem _ => 44
  | LProv => 45
  | LTrig => 46
  | LLog => 50
  end.

Fixpoint okb (p : plan) (lo : nat) (b : blk) : bool :=
  match b with
  | Skip => true
  | Seq a b' => okb p lo a && okb p lo b'
  | With m _ body => Nat.ltb lo (rk p m) && okb p (rk p m) body
  | Hole _ => true
  | Inside _ body => okb p lo body
  end.

Fixpoint lvl (p : plan) (lo : nat) (b : blk) : Prop :=
  match b with
  | Skip => True
  | Seq a b' => lvl p lo a /\ lvl p lo b'
  | With m _ body => lo < rk p m /\ lvl p (rk p m) body
  | Hole c => forall k, may p c k = true -> okb p lo (call_blk k) = true
  | Inside _ _ => False
  end.

Definition ranked (p : plan) (l : list mark) (m : lck) : Prop :=
  forall m' e, In (Held m' e) l -> rk p m' < rk p m.

Definition below (p : plan) (lo : nat) (l : list mark) : Prop :=
  forall m e, In (Held m e) l -> rk p m <= lo.

Lemma okb_seqs : forall (X : Type) (f : X -> blk) p lo l,
  (forall x, In x l -> okb p lo (f x) = true) -> okb p lo (seqs (map f l)) = true.
Proof.
  intros X f p lo l. induction l as [|x l IH]; cbn; intro H; [reflexivity|].
  rewrite H by auto. cbn. apply IH. auto.
Qed.

Lemma lvl_seqs : forall (X : Type) (f : X -> blk) p lo l,
  (forall x, lvl p lo (f x)) -> lvl p lo (seqs (map f l)).
Proof. intros X f p lo l H. induction l; cbn; auto. Qed.

Ltac sat :=
  match goal with
  | |- True => exact Logic.I
  | |- _ /\ _ => split
  | |- _ < _ => cbn; lia
  | |- forall k, may _ _ k = true -> _ =>
      let k := fresh "k" in let Y := fresh "Y" in
      intros k Y; destruct k; try discriminate Y;
      repeat match goal with b : bool |- _ => destruct b end; reflexivity
  end.

Lemma files_lvl : forall p n, lvl p (rk p LSubGate) (reader_apply_layers n).
Proof.
  intros p n. unfold reader_apply_layers. cbn [lvl]. split.
  - induction n; cbn [repeat seqs lvl]; [exact Logic.I|]. split; [|exact IHn]. destruct p; cbn; repeat split; lia.
  - destruct p; cbn; repeat split; lia.
Qed.

Lemma job_lvl : forall p j, lvl p 0 (job_blk j).
Proof.
  intros p j. destruct j;
    cbn [job_blk applied lock share once_shared once lvl seqs];
    repeat match goal with |- _ /\ _ => split | |- True => exact Logic.I end;
    try (destruct p; cbn; lia);
    try (destruct user; cbn [when lvl]; destruct p; repeat sat; fail);
    try (apply lvl_seqs; intro x).
  - split; [apply files_lvl|]. destruct p, (rm_conf x), (rm_new x), (rm_cb x); cbn [when reader_apply_publication reader_fire_connect lvl lock once]; repeat sat.
  - destruct p; cbn; lia.
  - destruct p, (wm_new x), (wm_cb x), (wm_start x); cbn [when writer_apply_subscription writer_fire_connect writer_register writer_sample register_sample log lvl lock once seqs]; repeat sat.
  - destruct p; cbn; lia.
  - destruct p; destruct x as [r []]; cbn [fst snd when reader_registration reader_check lvl lock once]; repeat sat.
  - destruct p; destruct x as [r []]; cbn [fst snd when writer_registration writer_check writer_sample lvl lock once]; repeat sat.
  - destruct p; destruct x as [r [[] []]]; cbn [fst snd when reader_apply_sample lvl lock once seqs log]; repeat sat.
Qed.

Lemma fill_okb : forall p b lo beh, lvl p lo b ->
  (forall c ks, In (c, ks) (combine (holes b) beh) -> forall k, In k ks -> may p c k = true) ->
  okb p lo (fst (fill b beh)) = true /\ snd (fill b beh) = skipn (length (holes b)) beh.
Proof.
  intros p b. induction b as [|a IHa b IHb|m e b IH|c|c b IH]; intros lo beh L K.
  - split; reflexivity.
  - cbn [lvl] in L. destruct L as [L1 L2]. cbn [fill holes] in *.
    destruct (IHa lo beh L1) as [A1 A2].
    { intros c ks I. apply K. clear - I. revert beh I. induction (holes a) as [|x l IH]; intros beh I; cbn in *; [destruct I|].
      destruct beh as [|y beh]; [destruct I|]. destruct I as [I|I]; [left; exact I|right; apply IH; exact I]. }
    destruct (fill a beh) as [a1 beh1] eqn:F1. cbn [fst snd] in A1, A2. subst beh1.
    destruct (IHb lo (skipn (length (holes a)) beh) L2) as [B1 B2].
    { intros c ks I. apply K. clear - I. revert beh I. induction (holes a) as [|x l IH]; intros beh I; cbn in *; [exact I|].
      destruct beh as [|y beh]; [destruct (holes b); destruct I|]. right. apply IH. exact I. }
    destruct (fill b (skipn (length (holes a)) beh)) as [b1 beh2] eqn:F2. cbn [fst snd] in B1, B2 |- *.
    cbn [okb]. rewrite A1, B1. split; [reflexivity|]. rewrite B2, app_length.
    rewrite skipn_skipn. f_equal. lia.
  - cbn [lvl] in L. destruct L as [L1 L2]. cbn [fill holes] in *.
    destruct (IH (rk p m) beh L2 K) as [A1 A2]. destruct (fill b beh) as [b1 beh1]. cbn [fst snd okb] in *.
    split; [|exact A2]. rewrite A1. apply Nat.ltb_lt in L1. rewrite L1. reflexivity.
  - cbn [lvl fill holes] in *. destruct beh as [|ks beh]; [split; reflexivity|].
    cbn [fst snd okb skipn length]. split; [|reflexivity]. apply okb_seqs. intros k I. apply L.
    apply (K c ks); [left; reflexivity|exact I].
  - destruct L.
Qed.

Lemma api_okb : forall p c, keeps p (Api c) -> okb p 0 (call_blk c) = true.
Proof.
  intros p c K. destruct c; try (destruct p; repeat match goal with b : bool |- _ => destruct b end; reflexivity).
  cbn in K. subst p. cbn [call_blk seqs okb lock once rk Nat.ltb Nat.leb log andb].
  rewrite okb_seqs, okb_seqs; [reflexivity| |]; intros; reflexivity.
Qed.

Lemma work_okb : forall p w, keeps p w -> okb p 0 (work_blk w) = true.
Proof.
  intros p [c|j beh] K.
  - apply api_okb. exact K.
  - apply fill_okb; [apply job_lvl|exact K].
Qed.

(** Rank and nesting together. *)
Lemma okb_ranked : forall p b lo l, okb p lo b = true -> below p lo l -> tree_ok any l b -> tree_ok (ranked p) l b.
Proof.
  intros p b. induction b as [|a IHa b IHb|m e b IH|c|c b IH]; cbn; intros lo l O B T; auto.
  - apply andb_true_iff in O. destruct O, T. split; [eapply IHa|eapply IHb]; eauto.
  - apply andb_true_iff in O. destruct O as [O1 O2]. apply Nat.ltb_lt in O1. split.
    + intros m' e' I. apply B in I. lia.
    + apply IH with (lo := rk p m); [exact O2| |apply T].
      intros m' e' [I|I]; [injection I as -> <-; lia|]. apply B in I. lia.
  - split; [apply T|]. apply IH with (lo := lo); [exact O| |apply T].
    intros m' e' [I|I]; [discriminate|]. eapply B; eauto.
Qed.

Lemma work_ranked : forall p w, keeps p w -> tree_ok (ranked p) [] (work_blk w).
Proof.
  intros p w K. apply okb_ranked with (lo := 0); [apply work_okb; exact K|intros m e []|apply work_any].
Qed.

Lemma run_ranked : forall p wf es, Forall (event_keeps p) es -> Forall (nested (ranked p)) (run wf es).
Proof.
  intros p wf es F. apply nested_run with (ok := keeps p).
  - apply work_ranked.
  - intros l I. rewrite Forall_forall in F. exact (F _ I).
Qed.

(** ** Progress *)

(** The lock a thread waits for. *)
Definition wants (t : thr) : option lck :=
  match todo t with
  | Take m :: _ | Share m :: _ => Some m
  | _ => None
  end.

Definition want_rank (p : plan) (t : thr) : nat :=
  match wants t with Some m => S (rk p m) | None => 0 end.

Lemma max_want : forall p (s : sys), s <> [] -> exists t, In t s /\ forall t', In t' s -> want_rank p t' <= want_rank p t.
Proof.
  intros p s. induction s as [|a s IH]; intro N; [congruence|]. destruct s as [|b s].
  - exists a. split; [left; reflexivity|]. intros t' [->|[]]. lia.
  - destruct IH as (t & I & M); [discriminate|].
    destruct (Nat.le_gt_cases (want_rank p t) (want_rank p a)) as [Q|Q].
    + exists a. split; [left; reflexivity|]. intros t' [->|I']; [lia|]. specialize (M _ I'). lia.
    + exists t. split; [right; exact I|]. intros t' [->|I']; [lia|]. apply M. exact I'.
Qed.

(** A thread that holds a lock and cannot go on wants a higher one. *)
Lemma holder_wants : forall p wf s t m e, nested (ranked p) t -> In (Held m e) (has t) ->
  (forall i rest, todo t = i :: rest -> can wf s i = false) ->
  exists m', wants t = Some m' /\ rk p m < rk p m'.
Proof.
  intros p wf s t m e N I C. unfold nested in N. unfold wants. destruct (todo t) as [|i rest] eqn:T.
  - cbn in N. rewrite N in I. destruct I.
  - specialize (C i rest eq_refl). destruct i as [m'|m'|m'|c|c]; cbn in C; try discriminate.
    + cbn in N. destruct N as [N _]. exists m'. split; [reflexivity|]. eapply N; eauto.
    + cbn in N. destruct N as [N _]. exists m'. split; [reflexivity|]. eapply N; eauto.
Qed.

Lemma step_none : forall wf s, blocked wf s -> forall t i rest, In t s -> todo t = i :: rest -> can wf s i = false.
Proof.
  intros wf s B t i rest I T. apply In_nth_error in I. destruct I as [n E].
  specialize (B n). unfold step in B. rewrite E, T in B. destruct (can wf s i); [discriminate|reflexivity].
Qed.

Lemma no_block : forall p wf s, Forall (nested (ranked p)) s -> blocked wf s -> Forall (fun t => todo t = []) s.
Proof.
  intros p wf s F B. destruct s as [|t0 s0] eqn:ES; [constructor|]. rewrite <- ES in *.
  destruct (max_want p s) as (t & It & M); [rewrite ES; discriminate|].
  assert (K : forall u m e, In u s -> In (Held m e) (has u) -> want_rank p t > S (rk p m)).
  { intros u m e Iu Hm. rewrite Forall_forall in F.
    destruct (holder_wants p wf s u m e (F _ Iu) Hm) as (m' & W & R).
    - intros i rest T. eapply step_none; eauto.
    - specialize (M _ Iu). unfold want_rank at 1 in M. rewrite W in M. lia. }
  assert (Q : wants t = None).
  { destruct (wants t) as [m|] eqn:W; [|reflexivity]. exfalso.
    assert (WR : want_rank p t = S (rk p m)) by (unfold want_rank; rewrite W; reflexivity).
    assert (KK : forall u e, In u s -> ~ In (Held m e) (has u)).
    { intros u e Iu Hu. specialize (K u m e Iu Hu). lia. }
    assert (EX : existsb (holds m) s = false).
    { destruct (existsb (holds m) s) eqn:E; [|reflexivity]. exfalso. apply existsb_exists in E.
      destruct E as (u & Iu & H). apply holds_in in H. destruct H as [e H]. exact (KK u e Iu H). }
    assert (EX2 : existsb (holds_ex m) s = false).
    { destruct (existsb (holds_ex m) s) eqn:E; [|reflexivity]. exfalso. apply existsb_exists in E.
      destruct E as (u & Iu & H). apply holds_ex_in in H. exact (KK u true Iu H). }
    unfold wants in W. destruct (todo t) as [|i rest] eqn:T; [discriminate|].
    destruct i as [m'|m'|m'|c|c]; try discriminate; injection W as ->.
    - pose proof (step_none wf s B t _ _ It T) as C. cbn in C. rewrite EX in C. discriminate.
    - pose proof (step_none wf s B t _ _ It T) as C. cbn in C. rewrite EX2 in C. cbn in C.
      apply negb_false_iff in C. apply andb_true_iff in C. destruct C as [_ C].
      apply existsb_exists in C. destruct C as (u & Iu & A). unfold awaits_ex in A.
      destruct (todo u) as [|j rest'] eqn:Tu; [discriminate|]. destruct j; try discriminate.
      apply eqb_true in A. subst m0.
      pose proof (step_none wf s B u _ _ Iu Tu) as C. cbn in C. rewrite EX in C. discriminate. }
  assert (Z0 : want_rank p t = 0) by (unfold want_rank; rewrite Q; reflexivity).
  apply Forall_forall. intros u Iu. destruct (todo u) as [|i rest] eqn:T; [reflexivity|]. exfalso.
  pose proof (step_none wf s B u _ _ Iu T) as C. specialize (M _ Iu). rewrite Z0 in M. unfold want_rank, wants in M. rewrite T in M.
  destruct i; cbn in C; try discriminate; lia.
Qed.

Lemma done_when : forall p s, Forall (nested (ranked p)) s -> Forall (fun t => todo t = []) s -> Forall done s.
Proof.
  intros p s F G. rewrite Forall_forall in *. intros t I. split; [exact (G _ I)|].
  specialize (F _ I). unfold nested in F. rewrite (G _ I) in F. exact F.
Qed.

Lemma blocked_dec : forall wf s, blocked wf s \/ exists n s', step wf n s = Some s'.
Proof.
  intros wf s. destruct (existsb (fun n => match step wf n s with Some _ => true | None => false end) (seq 0 (length s))) eqn:E.
  - right. apply existsb_exists in E. destruct E as (n & _ & H). destruct (step wf n s) as [s'|] eqn:S; [eauto|discriminate].
  - left. intro n. destruct (step wf n s) as [s'|] eqn:S; [|reflexivity]. exfalso.
    assert (X : existsb (fun n => match step wf n s with Some _ => true | None => false end) (seq 0 (length s)) = true); [|congruence].
    apply existsb_exists. exists n. rewrite S. split; [|reflexivity]. apply in_seq.
    apply step_inv in S. destruct S as (t & i & rest & E' & _). split; [lia|]. cbn. apply nth_error_Some. rewrite E'. discriminate.
Qed.

Lemma left_put : forall s n t i rest h, nth_error s n = Some t -> todo t = i :: rest ->
  remaining s = S (remaining (put n {| todo := rest; has := h |} s)).
Proof.
  intro s. induction s as [|a s IH]; intros n t i rest h E T; [destruct n; discriminate|].
  destruct n as [|n]; cbn in *.
  - injection E as ->. rewrite T. cbn. reflexivity.
  - unfold remaining in *. cbn. rewrite (IH n t i rest h E T). lia.
Qed.

Lemma left_step : forall wf n s s', step wf n s = Some s' -> remaining s = S (remaining s').
Proof.
  intros wf n s s' H. apply step_inv in H. destruct H as (t & i & rest & E & T & C & ->).
  eapply left_put; eauto.
Qed.

Lemma steps_left : forall wf ns s s', steps wf ns s s' -> remaining s = length ns + remaining s'.
Proof.
  intros wf ns s s' H. induction H as [|n ns s s1 s2 E H IH]; [reflexivity|].
  rewrite (left_step _ _ _ _ E), IH. cbn. lia.
Qed.

Lemma steps_nested : forall R wf ns s s', steps wf ns s s' -> Forall (nested R) s -> Forall (nested R) s'.
Proof.
  intros R wf ns s s' H. induction H as [|n ns s s1 s2 E H IH]; intro F; [exact F|].
  apply IH. eapply nested_step; eauto.
Qed.

Lemma progress_lemma : forall p wf es, Forall (event_keeps p) es ->
  Forall done (run wf es) \/ exists n s', step wf n (run wf es) = Some s'.
Proof.
  intros p wf es F. pose proof (run_ranked p wf es F) as N.
  destruct (blocked_dec wf (run wf es)) as [B|S]; [left|right; exact S].
  apply (done_when p); [exact N|]. eapply no_block; eauto.
Qed.

Lemma any_order_lemma : forall p wf es ns s, Forall (event_keeps p) es -> steps wf ns (run wf es) s ->
  length ns <= remaining (run wf es) /\ (blocked wf s -> Forall done s).
Proof.
  intros p wf es ns s F H. pose proof (run_ranked p wf es F) as N. split.
  - rewrite (steps_left _ _ _ _ H). lia.
  - intro B. pose proof (steps_nested _ _ _ _ _ H N) as N'.
    apply (done_when p); [exact N'|]. eapply no_block; eauto.
Qed.

Lemma finish_from : forall p wf k s, remaining s <= k -> Forall (nested (ranked p)) s ->
  exists ns s', steps wf ns s s' /\ Forall done s'.
Proof.
  intros p wf k. induction k as [|k IH]; intros s L N;
    (destruct (blocked_dec wf s) as [B|(n & s1 & S)];
      [exists [], s; split; [constructor|]; apply (done_when p); [exact N|]; eapply no_block; eauto|]).
  - pose proof (left_step _ _ _ _ S). lia.
  - pose proof (left_step _ _ _ _ S). destruct (IH s1) as (ns & s' & H1 & H2); [lia|eapply nested_step; eauto|].
    exists (n :: ns), s'. split; [econstructor; eauto|exact H2].
Qed.

Lemma finishes_lemma : forall p wf es, Forall (event_keeps p) es ->
  exists ns s', steps wf ns (run wf es) s' /\ Forall done s'.
Proof.
  intros p wf es F. apply (finish_from p wf (remaining (run wf es))); [lia|]. apply run_ranked. exact F.
Qed.

(** ** Standing still is for ever *)

Lemma can_more : forall wf s extra i, can wf s i = false -> can wf (s ++ extra) i = false.
Proof.
  intros wf s extra i H. destruct i as [m|m|m|c|c]; cbn in *; try discriminate.
  - apply negb_false_iff in H. rewrite existsb_app, H. reflexivity.
  - apply andb_false_iff in H. destruct H as [H|H].
    + apply negb_false_iff in H. rewrite existsb_app, H. reflexivity.
    + apply negb_false_iff in H. apply andb_true_iff in H. destruct H as [-> H].
      rewrite (existsb_app (awaits_ex m)), H. cbn. apply andb_false_r.
Qed.

Lemma put_app : forall n t s extra, length s <= n -> put n t (s ++ extra) = s ++ put (n - length s) t extra.
Proof.
  intros n t s. revert n. induction s as [|a s IH]; intros n extra L; cbn in *; [rewrite Nat.sub_0_r; reflexivity|].
  destruct n as [|n]; [lia|]. cbn. rewrite IH by lia. reflexivity.
Qed.

Lemma stand_still : forall wf es s extra, blocked wf s ->
  exists extra', fold_left (do_evt wf) es (s ++ extra) = s ++ extra'.
Proof.
  intros wf es. induction es as [|e es IH]; intros s extra B; cbn; [eauto|].
  destruct e as [n|l]; cbn.
  - destruct (step wf n (s ++ extra)) as [s'|] eqn:E; [|apply IH; exact B].
    apply step_inv in E. destruct E as (t & i & rest & E & T & C & ->).
    destruct (Nat.lt_ge_cases n (length s)) as [L|L].
    + exfalso. rewrite nth_error_app1 in E by exact L.
      rewrite (can_more wf s extra i) in C; [discriminate|].
      eapply step_none; eauto. eapply nth_error_In; eauto.
    + rewrite put_app by exact L. apply IH. exact B.
  - rewrite <- app_assoc. apply IH. exact B.
Qed.

Lemma spawn_length : forall wf ws s, length (fold_left (do_evt wf) (map Spawn ws) s) = length s + length ws.
Proof.
  intros wf ws. induction ws as [|w ws IH]; intro s; cbn; [lia|]. rewrite IH, app_length. cbn. lia.
Qed.

Lemma put_length : forall n t s, length (put n t s) = length s.
Proof. intros n t s. revert n. induction s as [|a s IH]; intros [|n]; cbn; auto. Qed.

Lemma run_length : forall wf ns s, length (fold_left (do_evt wf) (map Run ns) s) = length s.
Proof.
  intros wf ns. induction ns as [|n ns IH]; intro s; cbn; [reflexivity|]. rewrite IH.
  destruct (step wf n s) as [s'|] eqn:E; [|reflexivity].
  apply step_inv in E. destruct E as (t & i & rest & E & T & C & ->). apply put_length.
Qed.

Lemma standing_hangs : forall wf ws ns, standing wf (map Spawn ws ++ map Run ns) = true -> hangs wf ws.
Proof.
  intros wf ws ns H. exists ns. intro es. unfold standing in H. apply andb_true_iff in H. destruct H as [H1 H2].
  unfold run. rewrite app_assoc, fold_left_app. change (fold_left (do_evt wf) (map Spawn ws ++ map Run ns) []) with (run wf (map Spawn ws ++ map Run ns)).
  assert (LE : length (run wf (map Spawn ws ++ map Run ns)) = length ws).
  { unfold run. rewrite fold_left_app, run_length, spawn_length. reflexivity. }
  revert H1 H2 LE. generalize (run wf (map Spawn ws ++ map Run ns)). intros s H1 H2 LE.
  assert (B : blocked wf s).
  { intro n. destruct (step wf n s) as [s'|] eqn:E; [|reflexivity]. exfalso.
    rewrite forallb_forall in H2. specialize (H2 n). rewrite E in H2.
    assert (I : In n (seq 0 (length s))); [|apply H2 in I; discriminate].
    apply in_seq. apply step_inv in E. destruct E as (t & i & rest & E & _). split; [lia|]. cbn.
    apply nth_error_Some. rewrite E. discriminate. }
  destruct (stand_still wf es s [] B) as [extra E]. rewrite app_nil_r in E. rewrite E.
  apply existsb_exists in H1. destruct H1 as (t & It & Ht). exists t. split.
  - rewrite <- LE, firstn_app, firstn_all, Nat.sub_diag. cbn. rewrite app_nil_r. exact It.
  - intro Q. rewrite Q in Ht. discriminate.
Qed.

(** ** Examples and counterexamples *)

Lemma doneb_done : forall s, doneb s = true -> Forall done s.
Proof.
  intros s E. unfold doneb in E. rewrite forallb_forall in E. apply Forall_forall. intros t I. specialize (E t I).
  unfold done. destruct (todo t), (has t); try discriminate. split; reflexivity.
Qed.

Lemma busy_keeps : Forall (event_keeps SubsUsePubs) busy.
Proof.
  assert (B : forallb (fun e => match e with
      | Run _ => true
      | Spawn l => forallb (fun w => match w with
          | Api (Finalize _ _) => false
          | Api _ => true
          | Job j beh => forallb (fun x => forallb (may SubsUsePubs (fst x)) (snd x)) (combine (holes (job_blk j)) beh)
          end) l
      end) busy = true) by (vm_compute; reflexivity).
  rewrite forallb_forall in B. apply Forall_forall. intros e I. specialize (B e I).
  destruct e as [n|l]; [exact Logic.I|]. cbn. rewrite forallb_forall in B. apply Forall_forall. intros w Iw.
  specialize (B w Iw). destruct w as [c|j beh].
  - destruct c; try exact Logic.I. discriminate.
  - intros c ks H k Ik. rewrite forallb_forall in B. specialize (B _ H). cbn in B.
    rewrite forallb_forall in B. apply B. exact Ik.
Qed.

Lemma create_in_event_hangs : forall wf,
  hangs wf [[connects 1 [CreateSub 2]]] /\ hangs wf [[pub_connects 1 [CreatePub 2]]].
Proof. intros []; split; apply (standing_hangs _ _ (repeat 0 60)); vm_compute; reflexivity. Qed.

Lemma ask_in_disconnected_hangs : forall wf,
  hangs wf [[disconnects 1 [IsPublished 1]]] /\ hangs wf [[pub_disconnects 1 [Send 1 false false]]].
Proof. intros []; split; apply (standing_hangs _ _ (repeat 0 60)); vm_compute; reflexivity. Qed.

Lemma ask_in_connected_hangs : forall wf,
  hangs wf [[connects 1 [IsPublished 1]]; [disconnects 1 []]] /\
  hangs wf [[pub_connects 1 [Send 1 true false]]; [pub_disconnects 1 []]].
Proof.
  intros []; split; first [apply (standing_hangs _ _ (first_then 11)); vm_compute; reflexivity
                          |apply (standing_hangs _ _ (first_then 9)); vm_compute; reflexivity].
Qed.

Lemma own_callback_hangs : forall wf,
  hangs wf [[sample_for 1 [RemReceive 1]]] /\ hangs wf [[sample_for 1 [DestroySub 1]]] /\
  hangs wf [[sample_lost 1 [RemReceive 1]]] /\ hangs wf [[connects 1 [RemSubEvent 1]]].
Proof.
  intros []; (split; [|split; [|split]]); apply (standing_hangs _ _ (repeat 0 60)); vm_compute; reflexivity.
Qed.

Lemma cross_destroy_hangs : forall wf,
  hangs wf [[sample_for 1 [DestroySub 2]]; [sample_for 2 [DestroySub 1]]].
Proof. intros []; apply (standing_hangs _ _ (first_then 8)); vm_compute; reflexivity. Qed.

Lemma both_ways_hangs : forall wf,
  hangs wf [[connects 1 [CreatePub 3]]; [pub_disconnects 2 [CreateSub 4]]] /\
  keeps SubsUsePubs (connects 1 [CreatePub 3]) /\ keeps PubsUseSubs (pub_disconnects 2 [CreateSub 4]).
Proof.
  intro wf. split; [|split].
  - destruct wf; apply (standing_hangs _ _ (first_then 11)); vm_compute; reflexivity.
  - intros c ks [H|[]] k I. injection H as <- <-. destruct I as [<-|[]]. reflexivity.
  - intros c ks [H|[]] k I. injection H as <- <-. destruct I as [<-|[]]. reflexivity.
Qed.

Lemma finalize_hangs : forall wf,
  hangs wf [[sample_for 1 [CreateSub 2]]; [Api (Finalize [1] [])]] /\
  keeps SubsUsePubs (sample_for 1 [CreateSub 2]) /\
  hangs wf [[sample_for 1 [Finalize [1] []]]].
Proof.
  intro wf. split; [|split].
  - destruct wf; apply (standing_hangs _ _ (first_then 10)); vm_compute; reflexivity.
  - intros c ks [H|[]] k I. injection H as <- <-. destruct I as [<-|[]]. reflexivity.
  - destruct wf; apply (standing_hangs _ _ (repeat 0 60)); vm_compute; reflexivity.
Qed.

Lemma customer_hangs : forall wf,
  hangs wf [[Job (OtherRegistered true) [[SetCustomer]]]] /\
  hangs wf [[sample_for 1 [SetCustomer]]; [Job (OtherRegistered true) [[DestroySub 1]]]] /\
  forall p, keeps p (Job (OtherRegistered true) [[DestroySub 1]]).
Proof.
  intro wf. split; [|split].
  - destruct wf; apply (standing_hangs _ _ (repeat 0 60)); vm_compute; reflexivity.
  - destruct wf; apply (standing_hangs _ _ (first_then 8)); vm_compute; reflexivity.
  - intros p c ks [H|[]] k I. injection H as <- <-. destruct I as [<-|[]]. reflexivity.
Qed.

Lemma changes_lemma : forall k c, In c (changes k) -> In (Take (guard c)) (program [Api k]).
Proof.
  intros k c H. destruct k; cbn in H; repeat (destruct H as [<-|H]); try contradiction; vm_compute; auto 40.
Qed.
