(** * Svl: proofs *)

From Coq Require Import List Bool Arith Lia.
From Verif Require Import Base.
From Verif Require LckModel LckSpec LckProofs.
From Verif Require Import SvlModel SvlSpec.
Import ListNotations.

(** ** Nesting *)

(** What a callback needs around it. *)
Definition on_thread (l : list mark) : Prop := exists i, i < num_io_threads /\ In (Held (LIo i) true) l.

Definition under (c : cb) (l : list mark) : Prop :=
  match guard c with Some g => exists l', l = Held g true :: l' | None => on_thread l end.

(** [R l (Some m)]: with the marks [l], lock [m] may be taken; [R l None]: an answer
    may be waited for. *)
Fixpoint nest (R : list mark -> option lk -> Prop) (l : list mark) (p : list ins) : Prop :=
  match p with
  | [] => l = []
  | Take m :: p' => R l (Some m) /\ nest R (Held m true :: l) p'
  | Share m :: p' => R l (Some m) /\ nest R (Held m false :: l) p'
  | Drop m :: p' => exists e l', l = Held m e :: l' /\ nest R l' p'
  | Enter c :: p' => under c l /\ nest R (In_ c :: l) p'
  | Leave c :: p' => exists l', l = In_ c :: l' /\ nest R l' p'
  | Wait _ :: p' => R l None /\ nest R l p'
  end.

Fixpoint tree_ok (R : list mark -> option lk -> Prop) (l : list mark) (b : blk) : Prop :=
  match b with
  | Skip => True
  | Seq a b' => tree_ok R l a /\ tree_ok R l b'
  | With m e body => R l (Some m) /\ tree_ok R (Held m e :: l) body
  | Hole _ => True
  | Inside c body => under c l /\ tree_ok R (In_ c :: l) body
  | Await _ => R l None
  end.

Lemma flat_nest : forall R b l rest, tree_ok R l b -> nest R l rest -> nest R l (flat b ++ rest).
Proof.
  intros R b. induction b as [|a IHa b IHb|m e b IH|c|c b IH|xs]; cbn [flat tree_ok]; intros l rest T N.
  - exact N.
  - destruct T as [T1 T2]. rewrite <- app_assoc. apply IHa; auto.
  - destruct T as [T1 T2].
    assert (H : nest R (Held m e :: l) (flat b ++ Drop m :: rest)).
    { apply IH; [exact T2|]. cbn. exists e, l. auto. }
    rewrite <- app_comm_cons, <- app_assoc. cbn [app]. destruct e; cbn; auto.
  - exact N.
  - destruct T as [T1 T2]. rewrite <- app_comm_cons, <- app_assoc. cbn [app nest]. split; [exact T1|].
    apply IH; [exact T2|]. cbn. exists l. auto.
  - cbn. auto.
Qed.

(** One step keeps the nesting. *)
Lemma nest_step : forall R i p l, nest R l (i :: p) -> nest R (exec i l) p.
Proof.
  intros R i p l H. destruct i as [m|m|m|c|c|xs]; cbn in H |- *.
  - apply H.
  - apply H.
  - destruct H as (e & l' & -> & H). cbn. rewrite eqb_refl. exact H.
  - apply H.
  - destruct H as (l' & -> & H). cbn. rewrite eqb_refl. exact H.
  - apply H.
Qed.

(** ** Lists of threads *)
Lemma put_forall : forall (P : thr -> Prop) n t s, Forall P s -> P t -> Forall P (put n t s).
Proof.
  intros P n t s. revert n. induction s as [|t' s IH]; intros n F H; cbn; [constructor|].
  inversion F; subst. destruct n; constructor; auto.
Qed.

Lemma put_nth : forall n t s k, n < length s ->
  nth_error (put n t s) k = if Nat.eqb k n then Some t else nth_error s k.
Proof.
  intros n t s. revert n. induction s as [|t' s IH]; intros n k L; cbn in *; [lia|].
  destruct n; destruct k; cbn; auto. apply IH. lia.
Qed.

Lemma step_inv : forall pl n s s', step pl n s = Some s' ->
  exists t i rest, nth_error s n = Some t /\ todo t = i :: rest /\ can pl s i = true /\
    s' = put n {| todo := rest; has := exec i (has t) |} s.
Proof.
  intros pl n s s' H. unfold step in H. destruct (nth_error s n) as [t|] eqn:E; [|discriminate].
  destruct (todo t) as [|i rest] eqn:T; [discriminate|].
  destruct (can pl s i) eqn:C; [|discriminate]. injection H as <-. exists t, i, rest. auto.
Qed.

Lemma forall_nth : forall (P : thr -> Prop) s n t, Forall P s -> nth_error s n = Some t -> P t.
Proof. intros P s n t F H. rewrite Forall_forall in F. apply F. eapply nth_error_In; eauto. Qed.

Section Nesting.
  Variable R : list mark -> option lk -> Prop.
  Variable ok : work -> Prop.
  Hypothesis ok_tree : forall w, ok w -> tree_ok R [] (work_blk w).

  Definition nested (t : thr) : Prop := nest R (has t) (todo t).

  Lemma nested_step : forall pl n s s', Forall nested s -> step pl n s = Some s' -> Forall nested s'.
  Proof.
    intros pl n s s' F H. apply step_inv in H. destruct H as (t & i & rest & E & T & C & ->).
    apply put_forall; [exact F|]. unfold nested. cbn. apply nest_step.
    rewrite <- T. exact (forall_nth _ _ _ _ F E).
  Qed.

  Lemma program_nest : forall l, Forall ok l -> nest R [] (program l).
  Proof.
    intros l F. unfold program. rewrite <- (app_nil_r (flat _)). apply flat_nest; [|reflexivity].
    induction F as [|w l Hw F IH]; cbn; auto.
  Qed.

  Lemma nested_run : forall pl es, (forall l, In (Spawn l) es -> Forall ok l) -> Forall nested (run pl es).
  Proof.
    intros pl es. unfold run. assert (G : Forall nested []) by constructor. revert G.
    generalize (@nil thr). induction es as [|e es IH]; intros s F K; cbn; [exact F|].
    apply IH.
    - destruct e as [n|l]; cbn.
      + destruct (step pl n s) as [s'|] eqn:E; [|exact F]. eapply nested_step; eauto.
      + apply Forall_app. split; [exact F|]. constructor; [|constructor].
        unfold nested. cbn. apply program_nest. apply K. left. reflexivity.
    - intros l Hl. apply K. right. exact Hl.
  Qed.
End Nesting.

(** ** Locks exclude each other *)

(** Exclusive means alone. *)
Definition exclusive (s : sys) : Prop :=
  forall i j a b m e, nth_error s i = Some a -> nth_error s j = Some b -> i <> j ->
    In (Held m true) (has a) -> In (Held m e) (has b) -> False.

Lemma holds_in : forall m t, holds m t = true <-> exists e, In (Held m e) (has t).
Proof.
  intros m t. unfold holds. rewrite existsb_exists. split.
  - intros (k & I & H). destruct k as [m' e|c]; [|discriminate]. apply eqb_true in H. subst m'. exists e. exact I.
  - intros (e & I). exists (Held m e). split; [exact I|]. apply eqb_refl.
Qed.

Lemma holds_ex_in : forall m t, holds_ex m t = true <-> In (Held m true) (has t).
Proof.
  intros m t. unfold holds_ex. rewrite existsb_exists. split.
  - intros (k & I & H). destruct k as [m' e|c]; [|discriminate]. apply andb_true_iff in H.
    destruct H as [H ->]. apply eqb_true in H. subst m'. exact I.
  - intro I. exists (Held m true). split; [exact I|]. rewrite eqb_refl. reflexivity.
Qed.

Lemma exec_in : forall i l m e, In (Held m e) (exec i l) ->
  In (Held m e) l \/ (e = true /\ i = Take m) \/ (e = false /\ i = Share m).
Proof.
  intros i l m e. destruct i as [m'|m'|m'|c|c|xs]; cbn; [| | | | |auto].
  - intros [H|H]; [injection H as -> <-; auto|auto].
  - intros [H|H]; [injection H as -> <-; auto|auto].
  - intro H. left. induction l as [|k l IH]; [exact H|]. cbn in H. destruct k as [m2 e2|c2].
    + destruct (eqb m2 m'); [right; exact H|]. destruct H as [H|H]; [left; exact H|right; auto].
    + destruct H as [H|H]; [discriminate|right; auto].
  - intros [H|H]; [discriminate|auto].
  - intro H. left. induction l as [|k l IH]; [exact H|]. cbn in H. destruct k as [m2 e2|c2].
    + destruct H as [H|H]; [left; exact H|right; auto].
    + destruct (eqb c2 c); [right; exact H|]. destruct H as [H|H]; [discriminate|right; auto].
Qed.

Lemma exclusive_step : forall pl n s s', exclusive s -> step pl n s = Some s' -> exclusive s'.
Proof.
  intros pl n s s' X H. apply step_inv in H. destruct H as (t & i & rest & E & T & C & ->).
  assert (L : n < length s) by (apply nth_error_Some; rewrite E; discriminate).
  intros a b ta tb m e Ea Eb D Ia Ib. rewrite put_nth in Ea, Eb by exact L.
  destruct (Nat.eqb a n) eqn:An; destruct (Nat.eqb b n) eqn:Bn.
  - apply Nat.eqb_eq in An, Bn. congruence.
  - apply Nat.eqb_eq in An. subst a. injection Ea as <-. cbn in Ia.
    apply exec_in in Ia. destruct Ia as [Ia|[[_ ->]|[Q _]]]; [|clear D|discriminate].
    + exact (X _ _ _ _ _ _ E Eb D Ia Ib).
    + cbn in C. apply negb_true_iff in C.
      assert (existsb (holds m) s = true); [|congruence].
      apply existsb_exists. exists tb. split; [eapply nth_error_In; eauto|]. apply holds_in. eauto.
  - apply Nat.eqb_eq in Bn. subst b. injection Eb as <-. cbn in Ib.
    apply exec_in in Ib. destruct Ib as [Ib|[[-> ->]|[-> ->]]].
    + exact (X _ _ _ _ _ _ Ea E D Ia Ib).
    + cbn in C. apply negb_true_iff in C.
      assert (existsb (holds m) s = true); [|congruence].
      apply existsb_exists. exists ta. split; [eapply nth_error_In; eauto|]. apply holds_in. eauto.
    + cbn in C. apply andb_true_iff in C. destruct C as [C _]. apply negb_true_iff in C.
      assert (existsb (holds_ex m) s = true); [|congruence].
      apply existsb_exists. exists ta. split; [eapply nth_error_In; eauto|]. apply holds_ex_in. exact Ia.
  - exact (X _ _ _ _ _ _ Ea Eb D Ia Ib).
Qed.

Lemma exclusive_run : forall pl es, exclusive (run pl es).
Proof.
  intros pl es. unfold run. assert (G : exclusive []) by (intros [|i] j a b m e H; discriminate).
  revert G. generalize (@nil thr). induction es as [|e es IH]; intros s X; cbn; [exact X|].
  apply IH. destruct e as [n|l]; cbn.
  - destruct (step pl n s) as [s'|] eqn:E; [|exact X]. eapply exclusive_step; eauto.
  - intros i j a b m e Ha Hb D Ia Ib.
    destruct (Nat.lt_ge_cases i (length s)) as [Li|Li].
    + destruct (Nat.lt_ge_cases j (length s)) as [Lj|Lj].
      * rewrite nth_error_app1 in Ha, Hb by assumption. exact (X _ _ _ _ _ _ Ha Hb D Ia Ib).
      * rewrite nth_error_app2 in Hb by assumption.
        destruct (j - length s) as [|k]; cbn in Hb; [injection Hb as <-; destruct Ib|destruct k; discriminate].
    + rewrite nth_error_app2 in Ha by assumption.
      destruct (i - length s) as [|k]; cbn in Ha; [injection Ha as <-; destruct Ia|destruct k; discriminate].
Qed.

(** ** Callbacks run under their lock *)

Definition any : list mark -> option lk -> Prop := fun _ _ => True.

Definition is_io (m : lk) (e : bool) : Prop :=
  match m with LIo i => e = true /\ i < num_io_threads | _ => False end.

(** Innermost lock, and whether one of the four threads is at work. *)
Fixpoint guarded (top : option lk) (io : Prop) (b : blk) : Prop :=
  match b with
  | Skip => True
  | Seq a b' => guarded top io a /\ guarded top io b'
  | With m e body => guarded (if e then Some m else None) (io \/ is_io m e) body
  | Hole c => match guard c with Some g => top = Some g | None => io end
  | Inside _ _ => False
  | Await _ => True
  end.

Definition tops (top : option lk) (l : list mark) : Prop :=
  match top with
  | Some m => exists l', l = Held m true :: l'
  | None => True
  end.

Lemma emb_seqs : forall l, emb (LckModel.seqs l) = seqs (map emb l).
Proof. intro l. induction l as [|b l IH]; cbn; [reflexivity|]. rewrite IH. reflexivity. Qed.

Lemma guarded_seqs : forall top io l, (forall b, In b l -> guarded top io b) -> guarded top io (seqs l).
Proof. intros top io l H. induction l as [|b l IH]; cbn; auto. split; [apply H; left; reflexivity|]. apply IH. intros b' I. apply H. right. exact I. Qed.

Lemma guarded_map : forall (X : Type) (f : X -> blk) top io l, (forall x, guarded top io (f x)) -> guarded top io (seqs (map f l)).
Proof. intros X f top io l H. apply guarded_seqs. intros b I. apply in_map_iff in I. destruct I as (x & <- & _). apply H. Qed.

Lemma guarded_repeat : forall b top io n, guarded top io b -> guarded top io (seqs (repeat b n)).
Proof. intros b top io n H. apply guarded_seqs. intros b' I. apply repeat_spec in I. subst. exact H. Qed.

Lemma guarded_emb : forall b top io, LckProofs.guarded top b -> guarded (option_map P top) io (emb b).
Proof.
  intro b. induction b as [|a IHa b IHb|m e b IH|c|c b IH]; cbn; intros top io G; auto.
  - destruct G; auto.
  - apply (IH _ (io \/ False)) in G. destruct e; exact G.
  - subst top. reflexivity.
Qed.

Lemma plain_guarded : forall b top, LckProofs.plain b -> LckProofs.guarded top b.
Proof.
  intro b. induction b as [|a IHa b IHb|m e b IH|c|c b IH]; cbn; intros top G; auto; try contradiction.
  destruct G; auto.
Qed.

Lemma lck_call_guarded : forall k, guarded None False (emb (LckModel.call_blk k)).
Proof. intro k. apply (guarded_emb _ None False). apply plain_guarded. apply LckProofs.call_plain. Qed.

Ltac gd :=
  repeat first [exact Logic.I | reflexivity | contradiction
    | match goal with
      | |- _ /\ _ => split
      | |- _ \/ (true = true /\ _ mod num_io_threads < _) => right; split; [reflexivity|apply Nat.mod_upper_bound; discriminate]
      | |- guarded _ _ (seqs (map _ _)) => apply guarded_map; intro
      | |- guarded _ _ (seqs (repeat _ _)) => apply guarded_repeat
      | |- guarded _ _ (seqs (_ :: _)) => cbn [seqs]
      | |- guarded _ _ (emb (LckModel.call_blk _)) => apply lck_call_guarded
      | |- guarded _ _ (when (negb ?b) _) => is_var b; destruct b
      | |- guarded _ _ (when ?b _) => is_var b; destruct b
      | |- guarded _ _ _ => progress cbn
      end].

Lemma call_guarded : forall k, guarded None False (call_blk k).
Proof.
  intro k. destruct k; unfold call_blk, client_start, client_stop, call_blocking, check_new, send_calls, timeout_events, server_start, server_stop, client_sample;
    cbn [guarded seqs lock share once once_shared when]; gd.
Qed.

Lemma job_guarded : forall j, guarded None False (job_blk j).
Proof.
  intro j. destruct j; unfold job_blk, on_io, client_register_service, client_registration, client_check, check_new, client_sample, server_sample;
    try (apply (guarded_emb _ None False); apply LckProofs.job_guarded);
    cbn [guarded seqs lock share once once_shared when]; gd.
  - destruct x as [c n b]. cbn. destruct n, b; cbn; auto.
  - destruct x as [r f]. destruct f; cbn; auto.
  - destruct x as [r f]. destruct f; cbn; auto.
Qed.

Lemma fill_snd : forall b beh d, In d (snd (fill b beh)) -> In d beh.
Proof.
  intro b. induction b as [|a IHa b IHb|m e b IH|c|c b IH|xs]; cbn; intros beh d H; auto.
  - specialize (IHa beh). destruct (fill a beh) as [a1 beh1]. specialize (IHb beh1). destruct (fill b beh1) as [b1 beh2]. cbn in *. auto.
  - specialize (IH beh). destruct (fill b beh). cbn in *. auto.
  - destruct beh; cbn in *; auto.
Qed.

Lemma fill_tree : forall b top (io : Prop) l beh, guarded top io b -> tops top l -> (io -> on_thread l) ->
  (forall d, In d beh -> forall l', tree_ok any l' d) -> tree_ok any l (fst (fill b beh)).
Proof.
  intros b. induction b as [|a IHa b IHb|m e b IH|c|c b IH|xs]; cbn [guarded fill]; intros top io l beh G K T D.
  - exact Logic.I.
  - destruct G as [G1 G2]. pose proof (fill_snd a beh) as Q. destruct (fill a beh) as [a1 beh1] eqn:F1.
    destruct (fill b beh1) as [b1 beh2] eqn:F2. cbn. split.
    + specialize (IHa top io l beh G1 K T D). rewrite F1 in IHa. exact IHa.
    + specialize (IHb top io l beh1 G2 K T). rewrite F2 in IHb. apply IHb. intros d I. apply D. apply Q. exact I.
  - destruct (fill b beh) as [b1 beh1] eqn:F. cbn [fst tree_ok]. split; [exact Logic.I|].
    specialize (IH _ _ (Held m e :: l) beh G). rewrite F in IH. apply IH; [| |exact D].
    + destruct e; cbn; eauto.
    + intros [H|H].
      * destruct (T H) as (i & L & I). exists i. split; [exact L|right; exact I].
      * destruct m; try contradiction. cbn in H. destruct H as [-> H]. exists i. split; [exact H|left; reflexivity].
  - assert (U : under c l).
    { unfold under. destruct (guard c) as [g|]; [subst top; exact K|apply T; exact G]. }
    destruct beh as [|d beh]; cbn [fst tree_ok]; (split; [exact U|]); [exact Logic.I|]. apply D. left. reflexivity.
  - contradiction.
  - exact Logic.I.
Qed.

Section ActInd.
  Variable Q : act -> Prop.
  Hypothesis H : forall k beh, (forall l a, In l beh -> In a l -> Q a) -> Q (Act k beh).
  Fixpoint act_ind2 (a : act) : Q a :=
    match a with
    | Act k beh =>
        H k beh
          ((fix outer (ll : list (list act)) : forall l a, In l ll -> In a l -> Q a :=
              match ll with
              | [] => fun l a I => match I with end
              | l0 :: ll' => fun l a I J =>
                  match I with
                  | or_introl E =>
                      (fix inner (l1 : list act) : forall a, In a l1 -> Q a :=
                         match l1 with
                         | [] => fun a I' => match I' with end
                         | a0 :: l1' => fun a I' =>
                             match I' with
                             | or_introl E' => match E' in _ = y return Q y with eq_refl => act_ind2 a0 end
                             | or_intror I'' => inner l1' a I''
                             end
                         end) l0 a (match eq_sym E in _ = y return In a y with eq_refl => J end)
                  | or_intror I' => outer ll' l a I' J
                  end
              end) beh)
    end.
End ActInd.

Lemma seqs_tree : forall R l bs, (forall b, In b bs -> tree_ok R l b) -> tree_ok R l (seqs bs).
Proof. intros R l bs. induction bs as [|b bs IH]; cbn; auto. Qed.

Lemma acts_tree : forall (ll : list (list act)),
  (forall l a, In l ll -> In a l -> forall m, tree_ok any m (act_blk a)) ->
  forall d, In d (map (fun l => seqs (map act_blk l)) ll) -> forall m, tree_ok any m d.
Proof.
  intros ll K d I m. apply in_map_iff in I. destruct I as (l & <- & I). apply seqs_tree.
  intros b J. apply in_map_iff in J. destruct J as (a & <- & J). eapply K; eauto.
Qed.

Lemma act_any : forall a l, tree_ok any l (act_blk a).
Proof.
  intro a. induction a as [k beh IH] using act_ind2. intro l. cbn [act_blk].
  apply fill_tree with (top := None) (io := False); [apply call_guarded|exact Logic.I|intros []|]. apply acts_tree. exact IH.
Qed.

Lemma work_any : forall w, tree_ok any [] (work_blk w).
Proof.
  intros [a|j beh]; cbn [work_blk].
  - apply act_any.
  - eapply fill_tree; [apply job_guarded|exact Logic.I|intros []|]. apply acts_tree. intros l a _ _. apply act_any.
Qed.

(** Whoever is inside a callback holds its lock. *)
Definition cov (c : cb) (l : list mark) : Prop :=
  match guard c with Some g => In (Held g true) l | None => on_thread l end.

Definition covered (l : list mark) : Prop := forall c, In (In_ c) l -> cov c l.

Lemma cov_cons : forall c k l, cov c l -> cov c (k :: l).
Proof.
  intros c k l H. unfold cov in *. destruct (guard c); [right; exact H|].
  destruct H as (i & L & I). exists i. split; [exact L|right; exact I].
Qed.

Lemma under_cov : forall c l, under c l -> cov c l.
Proof. intros c l H. unfold under, cov in *. destruct (guard c); [|exact H]. destruct H as (l' & ->). left. reflexivity. Qed.

Lemma nest_covered_step : forall R i p l,
  (forall l1 l2, l = l1 ++ l2 -> covered l2) -> nest R l (i :: p) ->
  forall l1 l2, exec i l = l1 ++ l2 -> covered l2.
Proof.
  assert (W : forall (k : mark) (l l1 l2 : list mark), k :: l = l1 ++ l2 -> l2 = k :: l \/ exists l1', l = l1' ++ l2).
  { intros k l [|k' l1] l2 H; cbn in H; [left; congruence|right]. injection H as -> ->. eauto. }
  intros R i p l K N l1 l2 H. destruct i as [m|m|m|c|c|xs]; cbn in N, H.
  - destruct (W _ _ _ _ H) as [->|[l1' E]]; [|eapply K; eauto].
    intros c [Q|Q]; [discriminate|]. apply cov_cons. apply (K [] l eq_refl c Q).
  - destruct (W _ _ _ _ H) as [->|[l1' E]]; [|eapply K; eauto].
    intros c [Q|Q]; [discriminate|]. apply cov_cons. apply (K [] l eq_refl c Q).
  - destruct N as (e & l' & -> & N). cbn in H. rewrite eqb_refl in H. subst l'.
    apply (K (Held m e :: l1) l2). reflexivity.
  - destruct N as [U N]. destruct (W _ _ _ _ H) as [->|[l1' E]]; [|eapply K; eauto].
    intros c' [Q|Q]; apply cov_cons.
    + injection Q as ->. apply under_cov. exact U.
    + apply (K [] _ eq_refl c' Q).
  - destruct N as (l' & -> & N). cbn in H. rewrite eqb_refl in H. subst l'.
    apply (K (In_ c :: l1) l2). reflexivity.
  - eapply K. exact H.
Qed.

Definition suffixes_covered (t : thr) : Prop := forall l1 l2, has t = l1 ++ l2 -> covered l2.

Lemma covered_run : forall pl es,
  Forall (fun t => nested any t /\ suffixes_covered t) (run pl es).
Proof.
  intros pl es. unfold run.
  assert (G : Forall (fun t => nested any t /\ suffixes_covered t) []) by constructor. revert G.
  generalize (@nil thr). induction es as [|e es IH]; intros s F; cbn; [exact F|].
  apply IH. destruct e as [n|l]; cbn.
  - destruct (step pl n s) as [s'|] eqn:E; [|exact F].
    apply step_inv in E. destruct E as (t & i & rest & E & T & C & ->).
    apply put_forall; [exact F|]. destruct (forall_nth _ _ _ _ F E) as [N K].
    unfold nested in N. rewrite T in N. split.
    + unfold nested. cbn. apply nest_step. exact N.
    + unfold suffixes_covered. cbn. eapply nest_covered_step; eauto.
  - apply Forall_app. split; [exact F|]. constructor; [|constructor]. split.
    + unfold nested. cbn. apply (program_nest any (fun _ => True)); [intros w _; apply work_any|].
      clear. induction l; constructor; auto.
    + intros l1 l2 H c I. cbn in H. symmetry in H. apply app_eq_nil in H. destruct H as [_ ->]. destruct I.
Qed.

Lemma serial_lemma : forall pl es i j a b c c' g,
  nth_error (run pl es) i = Some a -> nth_error (run pl es) j = Some b -> i <> j ->
  inside c a -> inside c' b -> guard c = Some g -> guard c' <> Some g.
Proof.
  intros pl es i j a b c c' g Ha Hb D Ia Ib G G'. pose proof (covered_run pl es) as F.
  destruct (forall_nth _ _ _ _ F Ha) as [_ Ka]. destruct (forall_nth _ _ _ _ F Hb) as [_ Kb].
  pose proof (Ka [] (has a) eq_refl _ Ia) as Ja. pose proof (Kb [] (has b) eq_refl _ Ib) as Jb.
  unfold cov in Ja, Jb. rewrite G in Ja. rewrite G' in Jb.
  exact (exclusive_run pl es _ _ _ _ _ _ Ha Hb D Ja Jb).
Qed.

Lemma between_lemma : forall pl es i j a b m c,
  nth_error (run pl es) i = Some a -> nth_error (run pl es) j = Some b -> i <> j ->
  In (Held m true) (has a) -> guard c = Some m -> ~ inside c b.
Proof.
  intros pl es i j a b m c Ha Hb D Ia G Ib. pose proof (covered_run pl es) as F.
  destruct (forall_nth _ _ _ _ F Hb) as [_ Kb].
  pose proof (Kb [] (has b) eq_refl _ Ib) as Jb. unfold cov in Jb. rewrite G in Jb.
  exact (exclusive_run pl es _ _ _ _ _ _ Ha Hb D Ia Jb).
Qed.

(** Method callbacks occupy threads of the service library. *)
Lemma methods_on : forall pl es ns, NoDup ns ->
  (forall n, In n ns -> exists t v, nth_error (run pl es) n = Some t /\ inside (KMeth v) t) ->
  exists is, length is = length ns /\ NoDup is /\
    forall i, In i is -> i < num_io_threads /\
      exists n t, In n ns /\ nth_error (run pl es) n = Some t /\ In (Held (LIo i) true) (has t).
Proof.
  intros pl es ns N. induction N as [|n ns NI N IH]; intro H.
  - exists []. split; [reflexivity|]. split; [constructor|]. intros i [].
  - destruct IH as (is & L & D & K); [intros m I; apply H; right; exact I|].
    destruct (H n) as (t & v & E & I); [left; reflexivity|].
    destruct (forall_nth _ _ _ _ (covered_run pl es) E) as [_ C].
    destruct (C [] (has t) eq_refl _ I) as (i & Li & Ii).
    exists (i :: is). split; [cbn; rewrite L; reflexivity|]. split.
    + constructor; [|exact D]. intro J. destruct (K i J) as (_ & n' & t' & In' & E' & I').
      refine (exclusive_run pl es n n' t t' (LIo i) true E E' _ Ii I'). intros ->. contradiction.
    + intros j [<-|J].
      * split; [exact Li|]. exists n, t. split; [left; reflexivity|]. auto.
      * destruct (K j J) as (Lj & n' & t' & In' & E' & I'). split; [exact Lj|]. exists n', t'. split; [right; exact In'|]. auto.
Qed.

Lemma methods_lemma : forall pl es ns, NoDup ns ->
  (forall n, In n ns -> exists t v, nth_error (run pl es) n = Some t /\ inside (KMeth v) t) ->
  length ns <= num_io_threads.
Proof.
  intros pl es ns N H. destruct (methods_on pl es ns N H) as (is & <- & D & K).
  rewrite <- (seq_length num_io_threads 0). apply NoDup_incl_length; [exact D|].
  intros i I. apply in_seq. destruct (K i I). lia.
Qed.

(** ** Ranks *)
Definition rk (q : rules) (m : lk) : nat :=
  match m with
  | P m => LckProofs.rk (ps_plan q) m
  | LStr _ | LSStr _ => if destroy q then 3 else 11
  | LIo _ => if destroy q then 4 else 12
  | LSEv _ => if destroy q then 5 else 13
  | LRsp _ => if destroy q then 6 else 14
  | LCliGate => 15
  | LCm _ | LCon _ => 16
  | LCEv _ => 17
  | LSrvReg | LSrvGate | LWait _ => 33
  | LSing => 34
  | LSConn _ => 35
  | LMgr => 36
  | LList => 37
  | LSock | LCMeth _ | LSMap _ => 38
  end.

(** Waiting for an answer. *)
Definition wrk (q : rules) : nat := rk q (LStr 0).

(** The highest rank held around a callback. *)
Definition crk (q : rules) (c : cb) : nat :=
  match guard c with
  | Some g => rk q g
  | None => rk q (LIo 0)
  end.

(** The lowest rank of a call. *)
Definition mrk (q : rules) (k : call) : nat :=
  match k with
  | PS (LckModel.CreateSub _) => rk q (P LckModel.LSubGate)
  | PS (LckModel.DestroySub r) | PS (LckModel.SetReceive r) | PS (LckModel.RemReceive r) => rk q (P (LckModel.LRcv r))
  | PS (LckModel.SetSubEvent r) | PS (LckModel.RemSubEvent r) => rk q (P (LckModel.LREv r))
  | PS (LckModel.IsPublished r) => rk q (P (LckModel.LPm r))
  | PS (LckModel.ReadNow r) => rk q (P (LckModel.LBuf r))
  | PS (LckModel.CreatePub _) | PS (LckModel.DestroyPub _) => rk q (P LckModel.LPubGate)
  | PS (LckModel.Send w _ _) => rk q (P (LckModel.LSm w))
  | PS (LckModel.SetPubEvent w) | PS (LckModel.RemPubEvent w) => rk q (P (LckModel.LWEv w))
  | PS (LckModel.IsSubscribed w) => rk q (P (LckModel.LSm w))
  | PS (LckModel.WriteLog) => rk q (P LckModel.LLog)
  | PS (LckModel.SetCustomer) => rk q (P LckModel.LAppl)
  | PS (LckModel.Finalize _ _) => 0
  | CreateCli _ => rk q LCliGate
  | DestroyCli c | SetResp c | CallAsyncError c _ => rk q (LRsp c)
  | SetCliEvent c => rk q (LCEv c)
  | IsConnCli c => rk q (LCon c)
  | CallCb c _ _ timeout _ _ => if timeout then rk q (LRsp c) else wrk q
  | CallVec c _ _ timeout _ => if timeout then rk q (LCm c) else wrk q
  | CallAsync c _ _ => rk q (LCm c)
  | CreateSrv _ => rk q LSrvGate
  | DestroySrv s | SetSrvEvent s => rk q (LSEv s)
  | SetMethod s => rk q (LSMap s)
  | IsConnSrv _ => rk q LList
  | FinalizeAll _ _ _ _ => 0
  end.

Fixpoint lvlb (q : rules) (lo : nat) (b : blk) : bool :=
  match b with
  | Skip => true
  | Seq a b' => lvlb q lo a && lvlb q lo b'
  | With m _ body => Nat.ltb lo (rk q m) && lvlb q (rk q m) body
  | Hole c => Nat.leb lo (crk q c)
  | Inside _ body => lvlb q lo body
  | Await _ => Nat.ltb lo (wrk q)
  end.

Lemma lvlb_mono : forall q b lo lo', lo' <= lo -> lvlb q lo b = true -> lvlb q lo' b = true.
Proof.
  intros q b. induction b as [|a IHa b IHb|m e b IH|c|c b IH|xs]; cbn; intros lo lo' L H; auto.
  - apply andb_true_iff in H. destruct H. rewrite (IHa lo lo'), (IHb lo lo'); auto.
  - apply andb_true_iff in H. destruct H as [H ->]. apply Nat.ltb_lt in H. rewrite andb_true_r. apply Nat.ltb_lt. lia.
  - apply Nat.leb_le in H. apply Nat.leb_le. lia.
  - eapply IH; eauto.
  - apply Nat.ltb_lt in H. apply Nat.ltb_lt. lia.
Qed.

Lemma lvlb_seqs : forall q lo l, (forall b, In b l -> lvlb q lo b = true) -> lvlb q lo (seqs l) = true.
Proof. intros q lo l. induction l as [|b l IH]; cbn; intro H; [reflexivity|]. rewrite H by auto. apply IH. auto. Qed.

Lemma lvlb_map : forall (X : Type) (f : X -> blk) q lo l, (forall x, lvlb q lo (f x) = true) -> lvlb q lo (seqs (map f l)) = true.
Proof. intros X f q lo l H. apply lvlb_seqs. intros b I. apply in_map_iff in I. destruct I as (x & <- & _). apply H. Qed.

Lemma lvlb_emb_map : forall (X : Type) (f : X -> LckModel.blk) q lo l,
  (forall x, lvlb q lo (emb (f x)) = true) -> lvlb q lo (emb (LckModel.seqs (map f l))) = true.
Proof. intros X f q lo l H. rewrite emb_seqs, map_map. apply lvlb_map. exact H. Qed.

Lemma lvlb_repeat : forall q lo b n, lvlb q lo b = true -> lvlb q lo (seqs (repeat b n)) = true.
Proof. intros q lo b n H. apply lvlb_seqs. intros b' I. apply repeat_spec in I. subst. exact H. Qed.

Lemma lvlb_emb_repeat : forall q lo b n, lvlb q lo (emb b) = true -> lvlb q lo (emb (LckModel.seqs (repeat b n))) = true.
Proof. intros q lo b n H. induction n; cbn [repeat LckModel.seqs emb lvlb]; [reflexivity|]. rewrite H, IHn. reflexivity. Qed.

Lemma band : forall a b, a = true -> b = true -> a && b = true.
Proof. intros a b -> ->. reflexivity. Qed.

Ltac lv :=
  repeat first [reflexivity
    | match goal with
      | |- (_ && _) = true => apply band
      | |- lvlb _ _ (seqs (map _ _)) = true => apply lvlb_map; intro
      | |- lvlb _ _ (emb (LckModel.seqs (map _ _))) = true => apply lvlb_emb_map; intro
      | |- lvlb _ _ (seqs (repeat _ _)) = true => apply lvlb_repeat
      | |- lvlb _ _ (emb (LckModel.seqs (repeat _ _))) = true => apply lvlb_emb_repeat
      | |- lvlb _ _ (when (negb ?b) _) = true => is_var b; destruct b
      | |- lvlb _ _ (when ?b _) = true => is_var b; destruct b
      | b : bool |- _ => destruct b
      | x : (_ * _)%type |- _ => destruct x
      | x : LckModel.rmatch |- _ => destruct x
      | x : LckModel.wmatch |- _ => destruct x
      | x : cmatch |- _ => destruct x
      | x : creg |- _ => destruct x
      | |- lvlb _ _ _ = true => progress cbn
      end].

Lemma call_lvl : forall q k, lvlb q (mrk q k - 1) (call_blk k) = true \/ finalizes k = true.
Proof.
  intros [a b] k. destruct k as [k| | | | | | | | | | | | | | |];
    [destruct k|..]; try (right; reflexivity); left; destruct a, b;
    unfold call_blk, client_start, client_stop, call_blocking, check_new, send_calls, timeout_events, server_start, server_stop, client_sample;
    cbn [lvlb seqs lock share once once_shared when mrk rk wrk ps_plan pubs_use_subs destroy LckProofs.rk Nat.sub]; lv.
Qed.

Lemma call_lvl_below : forall q k lo, finalizes k = false -> lo < mrk q k -> lvlb q lo (call_blk k) = true.
Proof.
  intros q k lo F L. destruct (call_lvl q k) as [H|H]; [|congruence]. eapply lvlb_mono; [|exact H]. lia.
Qed.

Lemma never_finalizes : forall q c k, may q c k = true -> finalizes k = false.
Proof. intros q c k H. destruct k as [k| | | | | | | | | | | | | | |]; [destruct k|..]; try reflexivity; discriminate H. Qed.

Lemma may_mrk : forall q c k, may q c k = true -> crk q c < mrk q k.
Proof.
  intros [a b] c k H.
  assert (E : (crk {| pubs_use_subs := a; destroy := b |} c <? mrk {| pubs_use_subs := a; destroy := b |} k) = true); [|apply Nat.ltb_lt; exact E].
  destruct a, b; destruct c as [c| | | | | |]; try destruct c; destruct k as [k| | | | | | | | | | | | | | |]; try destruct k;
    repeat match goal with b : bool |- _ => destruct b end; try discriminate H; reflexivity.
Qed.

Lemma may_lvl : forall q c k, may q c k = true -> lvlb q (crk q c) (call_blk k) = true.
Proof. intros q c k H. apply call_lvl_below; [eapply never_finalizes; eauto|apply may_mrk; exact H]. Qed.

Lemma api_lvl : forall q k, finalizes k = false -> lvlb q 0 (call_blk k) = true.
Proof.
  intros q k F. apply call_lvl_below; [exact F|]. destruct q as [a b].
  destruct a, b; destruct k as [k| | | | | | | | | | | | | | |]; try destruct k; try discriminate F;
    repeat match goal with b : bool |- _ => destruct b end; cbn; lia.
Qed.

Lemma job_lvl : forall q j, lvlb q 0 (job_blk j) = true.
Proof.
  intros [a b] j. destruct j as [j| | | | | | |]; [destruct j|..]; destruct a, b;
    unfold job_blk, on_io, client_register_service, client_registration, client_check, check_new, client_sample, server_sample;
    cbn [lvlb seqs lock share once once_shared when rk wrk ps_plan pubs_use_subs destroy LckProofs.rk LckModel.job_blk LckModel.applied LckModel.lock LckModel.share LckModel.once LckModel.once_shared LckModel.seqs emb]; lv.
Qed.

Lemma fill_lvl : forall q b lo beh, lvlb q lo b = true ->
  (forall c d, In (c, d) (combine (holes b) beh) -> lvlb q (crk q c) d = true) ->
  lvlb q lo (fst (fill b beh)) = true /\ snd (fill b beh) = skipn (length (holes b)) beh.
Proof.
  intros q b. induction b as [|a IHa b IHb|m e b IH|c|c b IH|xs]; intros lo beh L K.
  - split; reflexivity.
  - cbn [lvlb] in L. apply andb_true_iff in L. destruct L as [L1 L2]. cbn [fill holes] in *.
    destruct (IHa lo beh L1) as [A1 A2].
    { intros c ks I. apply K. clear - I. revert beh I. induction (holes a) as [|x l IH]; intros beh I; cbn in *; [destruct I|].
      destruct beh as [|y beh]; [destruct I|]. destruct I as [I|I]; [left; exact I|right; apply IH; exact I]. }
    destruct (fill a beh) as [a1 beh1] eqn:F1. cbn [fst snd] in A1, A2. subst beh1.
    destruct (IHb lo (skipn (length (holes a)) beh) L2) as [B1 B2].
    { intros c ks I. apply K. clear - I. revert beh I. induction (holes a) as [|x l IH]; intros beh I; cbn in *; [exact I|].
      destruct beh as [|y beh]; [destruct (holes b); destruct I|]. right. apply IH. exact I. }
    destruct (fill b (skipn (length (holes a)) beh)) as [b1 beh2] eqn:F2. cbn [fst snd] in B1, B2 |- *.
    cbn [lvlb]. rewrite A1, B1. split; [reflexivity|]. rewrite B2, app_length.
    rewrite skipn_skipn. f_equal. lia.
  - cbn [lvlb] in L. apply andb_true_iff in L. destruct L as [L1 L2]. cbn [fill holes] in *.
    destruct (IH (rk q m) beh L2 K) as [A1 A2]. destruct (fill b beh) as [b1 beh1]. cbn [fst snd lvlb] in *.
    split; [|exact A2]. rewrite A1, L1. reflexivity.
  - cbn [lvlb fill holes] in *. destruct beh as [|d beh]; [split; reflexivity|].
    cbn [fst snd lvlb skipn length]. split; [|reflexivity].
    apply Nat.leb_le in L. eapply lvlb_mono; [exact L|]. apply K. left. reflexivity.
  - split; [exact L|reflexivity].
  - split; [exact L|reflexivity].
Qed.

Lemma combine_map : forall (X Y Z0 : Type) (f : Y -> Z0) (l : list X) (m : list Y) x z,
  In (x, z) (combine l (map f m)) -> exists y, In (x, y) (combine l m) /\ z = f y.
Proof.
  intros X Y Z0 f l. induction l as [|a l IH]; intros m x z I; [destruct I|].
  destruct m as [|b m]; [destruct I|]. cbn in I. destruct I as [I|I].
  - injection I as <- <-. exists b. split; [left; reflexivity|reflexivity].
  - apply IH in I. destruct I as (y & I & ->). exists y. split; [right; exact I|reflexivity].
Qed.

(** What callbacks do, given that what they do respects the ranks. *)
Lemma fill_acts : forall q b lo beh, lvlb q lo b = true ->
  (forall c l a, In (c, l) (combine (holes b) beh) -> In a l -> lvlb q (crk q c) (act_blk a) = true) ->
  lvlb q lo (fst (fill b (map (fun l => seqs (map act_blk l)) beh))) = true.
Proof.
  intros q b lo beh L K. apply fill_lvl; [exact L|]. intros c d I.
  apply combine_map in I. destruct I as (l & I & ->). apply lvlb_seqs. intros b' J.
  apply in_map_iff in J. destruct J as (a & <- & J). eapply K; eauto.
Qed.

Lemma act_lvl : forall q a, act_keeps q a -> forall lo, lvlb q lo (call_blk (what a)) = true -> lvlb q lo (act_blk a) = true.
Proof.
  intros q a H. induction H as [k beh M _ IH]. intros lo L. cbn [act_blk what] in *.
  apply fill_acts; [exact L|]. intros c l a I J. apply (IH c l a I J). apply may_lvl. eapply M; eauto.
Qed.

Lemma work_lvl : forall q w, keeps q w -> lvlb q 0 (work_blk w) = true.
Proof.
  intros q [a|j beh] K; cbn [work_blk].
  - destruct K as [F K]. apply act_lvl; [exact K|]. apply api_lvl. exact F.
  - apply fill_acts; [apply job_lvl|]. intros c l a I J. destruct (K c l a I J) as [M A].
    apply act_lvl; [exact A|]. apply may_lvl. exact M.
Qed.

Definition ranked (q : rules) (l : list mark) (m : option lk) : Prop :=
  forall m' e, In (Held m' e) l -> rk q m' < match m with Some m => rk q m | None => wrk q end.

Definition below (q : rules) (lo : nat) (l : list mark) : Prop :=
  forall m e, In (Held m e) l -> rk q m <= lo.

(** Rank and nesting together. *)
Lemma lvl_ranked : forall q b lo l, lvlb q lo b = true -> below q lo l -> tree_ok any l b -> tree_ok (ranked q) l b.
Proof.
  intros q b. induction b as [|a IHa b IHb|m e b IH|c|c b IH|xs]; cbn [lvlb tree_ok]; intros lo l O B T; auto.
  - apply andb_true_iff in O. destruct O, T. split; [eapply IHa|eapply IHb]; eauto.
  - apply andb_true_iff in O. destruct O as [O1 O2]. apply Nat.ltb_lt in O1. split.
    + intros m' e' I. apply B in I. lia.
    + apply IH with (lo := rk q m); [exact O2| |apply T].
      intros m' e' [I|I]; [injection I as -> <-; lia|]. apply B in I. lia.
  - split; [apply T|]. apply IH with (lo := lo); [exact O| |apply T].
    intros m' e' [I|I]; [discriminate|]. eapply B; eauto.
  - apply Nat.ltb_lt in O. intros m' e' I. apply B in I. cbv beta iota. lia.
Qed.

Lemma work_ranked : forall q w, keeps q w -> tree_ok (ranked q) [] (work_blk w).
Proof.
  intros q w K. apply lvl_ranked with (lo := 0); [apply work_lvl; exact K|intros m e []|apply work_any].
Qed.

Lemma run_ranked : forall q pl es, Forall (event_keeps q) es -> Forall (nested (ranked q)) (run pl es).
Proof.
  intros q pl es F. apply nested_run with (ok := keeps q).
  - apply work_ranked.
  - intros l I. rewrite Forall_forall in F. exact (F _ I).
Qed.

(** ** Progress *)

(** The rank of what a thread waits for. *)
Definition want_rank (q : rules) (t : thr) : nat :=
  match todo t with
  | Take m :: _ | Share m :: _ => S (rk q m)
  | Wait _ :: _ => S (wrk q)
  | _ => 0
  end.

Lemma max_want : forall q (s : sys), s <> [] -> exists t, In t s /\ forall t', In t' s -> want_rank q t' <= want_rank q t.
Proof.
  intros q s. induction s as [|a s IH]; intro N; [congruence|]. destruct s as [|b s].
  - exists a. split; [left; reflexivity|]. intros t' [->|[]]. lia.
  - destruct IH as (t & I & M); [discriminate|].
    destruct (Nat.le_gt_cases (want_rank q t) (want_rank q a)) as [Q|Q].
    + exists a. split; [left; reflexivity|]. intros t' [->|I']; [lia|]. specialize (M _ I'). lia.
    + exists t. split; [right; exact I|]. intros t' [->|I']; [lia|]. apply M. exact I'.
Qed.

(** A thread that holds a lock and cannot go on wants something higher. *)
Lemma holder_wants : forall q pl s t m e, nested (ranked q) t -> In (Held m e) (has t) ->
  (forall i rest, todo t = i :: rest -> can pl s i = false) ->
  S (rk q m) < want_rank q t.
Proof.
  intros q pl s t m e N I C. unfold nested in N. unfold want_rank. destruct (todo t) as [|i rest] eqn:T.
  - cbn in N. rewrite N in I. destruct I.
  - specialize (C i rest eq_refl). destruct i as [m'|m'|m'|c|c|xs]; try discriminate C.
    + cbn in N. destruct N as [N _]. apply N in I. lia.
    + cbn in N. destruct N as [N _]. apply N in I. lia.
    + cbn in N. destruct N as [N _]. apply N in I. lia.
Qed.

Lemma step_none : forall pl s, blocked pl s -> forall t i rest, In t s -> todo t = i :: rest -> can pl s i = false.
Proof.
  intros pl s B t i rest I T. apply In_nth_error in I. destruct I as [n E].
  specialize (B n). unfold step in B. rewrite E, T in B. destruct (can pl s i); [discriminate|reflexivity].
Qed.

Lemma wrk_io : forall q i, wrk q < rk q (LIo i).
Proof. intros [a []] i; cbn; lia. Qed.

Lemma no_block : forall q pl s, Forall (nested (ranked q)) s -> blocked pl s -> Forall (fun t => todo t = []) s.
Proof.
  intros q pl s F B. destruct s as [|t0 s0] eqn:ES; [constructor|]. rewrite <- ES in *.
  destruct (max_want q s) as (t & It & M); [rewrite ES; discriminate|].
  assert (K : forall u m e, In u s -> In (Held m e) (has u) -> S (rk q m) < want_rank q t).
  { intros u m e Iu Hm. rewrite Forall_forall in F.
    assert (W : S (rk q m) < want_rank q u).
    { apply (holder_wants q pl s u m e (F _ Iu) Hm). intros i rest T. eapply step_none; eauto. }
    specialize (M _ Iu). lia. }
  assert (FR : forall m, want_rank q t <= S (rk q m) -> existsb (holds m) s = false).
  { intros m L. destruct (existsb (holds m) s) eqn:E; [|reflexivity]. exfalso. apply existsb_exists in E.
    destruct E as (u & Iu & H). apply holds_in in H. destruct H as [e H]. specialize (K u m e Iu H). lia. }
  assert (FX : forall m, want_rank q t <= S (rk q m) -> existsb (holds_ex m) s = false).
  { intros m L. destruct (existsb (holds_ex m) s) eqn:E; [|reflexivity]. exfalso. apply existsb_exists in E.
    destruct E as (u & Iu & H). apply holds_ex_in in H. specialize (K u m true Iu H). lia. }
  assert (Q : want_rank q t = 0).
  { destruct (todo t) as [|i rest] eqn:T; [unfold want_rank; rewrite T; reflexivity|].
    pose proof (step_none pl s B t _ _ It T) as C.
    destruct i as [m|m|m|c|c|xs]; try (cbn in C; discriminate C); exfalso.
    - assert (WR : want_rank q t = S (rk q m)) by (unfold want_rank; rewrite T; reflexivity).
      cbn in C. rewrite FR in C by lia. discriminate.
    - assert (WR : want_rank q t = S (rk q m)) by (unfold want_rank; rewrite T; reflexivity).
      cbn in C. rewrite FX in C by lia. cbn in C.
      apply negb_false_iff in C. apply andb_true_iff in C. destruct C as [_ C].
      apply existsb_exists in C. destruct C as (u & Iu & A). unfold awaits_ex in A.
      destruct (todo u) as [|j rest'] eqn:Tu; [discriminate|]. destruct j; try discriminate.
      apply eqb_true in A. subst m0.
      pose proof (step_none pl s B u _ _ Iu Tu) as C. cbn in C. rewrite FR in C by lia. discriminate.
    - assert (WR : want_rank q t = S (wrk q)) by (unfold want_rank; rewrite T; reflexivity).
      assert (IO : io_free pl s = true).
      { unfold io_free. destruct (all pl).
        - apply forallb_forall. intros i _. rewrite FR; [reflexivity|]. pose proof (wrk_io q i). lia.
        - apply existsb_exists. exists 0. split; [left; reflexivity|]. rewrite FR; [reflexivity|]. pose proof (wrk_io q 0). lia. }
      assert (ST : forallb (fun x => negb (existsb (holds (LStr x)) s)) xs = true).
      { apply forallb_forall. intros x _. rewrite FR; [reflexivity|]. change (rk q (LStr x)) with (wrk q). lia. }
      unfold can in C. rewrite IO, ST in C. destruct xs; discriminate. }
  apply Forall_forall. intros u Iu. destruct (todo u) as [|i rest] eqn:T; [reflexivity|]. exfalso.
  pose proof (step_none pl s B u _ _ Iu T) as C. specialize (M _ Iu). rewrite Q in M. unfold want_rank in M. rewrite T in M.
  destruct i; try (cbn in C; discriminate C); lia.
Qed.

Lemma done_when : forall q s, Forall (nested (ranked q)) s -> Forall (fun t => todo t = []) s -> Forall done s.
Proof.
  intros q s F G. rewrite Forall_forall in *. intros t I. split; [exact (G _ I)|].
  specialize (F _ I). unfold nested in F. rewrite (G _ I) in F. exact F.
Qed.

Lemma blocked_dec : forall pl s, blocked pl s \/ exists n s', step pl n s = Some s'.
Proof.
  intros pl s. destruct (existsb (fun n => match step pl n s with Some _ => true | None => false end) (seq 0 (length s))) eqn:E.
  - right. apply existsb_exists in E. destruct E as (n & _ & H). destruct (step pl n s) as [s'|] eqn:S; [eauto|discriminate].
  - left. intro n. destruct (step pl n s) as [s'|] eqn:S; [|reflexivity]. exfalso.
    assert (X : existsb (fun n => match step pl n s with Some _ => true | None => false end) (seq 0 (length s)) = true); [|congruence].
    apply existsb_exists. exists n. rewrite S. split; [|reflexivity]. apply in_seq.
    apply step_inv in S. destruct S as (t & i & rest & E' & _). split; [lia|]. cbn. apply nth_error_Some. rewrite E'. discriminate.
Qed.

Lemma left_put : forall s n t i rest h, nth_error s n = Some t -> todo t = i :: rest ->
  remaining s = S (remaining (put n {| todo := rest; has := h |} s)).
Proof.
  intro s. induction s as [|a s IH]; intros n t i rest h E T; [destruct n; discriminate|].
  destruct n as [|n]; cbn in *.
  - injection E as ->. rewrite T. cbn. reflexivity.
  - unfold remaining in *. cbn. rewrite (IH n t i rest h E T). lia.
Qed.

Lemma left_step : forall pl n s s', step pl n s = Some s' -> remaining s = S (remaining s').
Proof.
  intros pl n s s' H. apply step_inv in H. destruct H as (t & i & rest & E & T & C & ->).
  eapply left_put; eauto.
Qed.

Lemma steps_left : forall pl ns s s', steps pl ns s s' -> remaining s = length ns + remaining s'.
Proof.
  intros pl ns s s' H. induction H as [|n ns s s1 s2 E H IH]; [reflexivity|].
  rewrite (left_step _ _ _ _ E), IH. cbn. lia.
Qed.

Lemma steps_nested : forall R pl ns s s', steps pl ns s s' -> Forall (nested R) s -> Forall (nested R) s'.
Proof.
  intros R pl ns s s' H. induction H as [|n ns s s1 s2 E H IH]; intro F; [exact F|].
  apply IH. eapply nested_step; eauto.
Qed.

Lemma progress_lemma : forall q pl es, Forall (event_keeps q) es ->
  Forall done (run pl es) \/ exists n s', step pl n (run pl es) = Some s'.
Proof.
  intros q pl es F. pose proof (run_ranked q pl es F) as N.
  destruct (blocked_dec pl (run pl es)) as [B|S]; [left|right; exact S].
  apply (done_when q); [exact N|]. eapply no_block; eauto.
Qed.

Lemma any_order_lemma : forall q pl es ns s, Forall (event_keeps q) es -> steps pl ns (run pl es) s ->
  length ns <= remaining (run pl es) /\ (blocked pl s -> Forall done s).
Proof.
  intros q pl es ns s F H. pose proof (run_ranked q pl es F) as N. split.
  - rewrite (steps_left _ _ _ _ H). lia.
  - intro B. pose proof (steps_nested _ _ _ _ _ H N) as N'.
    apply (done_when q); [exact N'|]. eapply no_block; eauto.
Qed.

Lemma finish_from : forall q pl k s, remaining s <= k -> Forall (nested (ranked q)) s ->
  exists ns s', steps pl ns s s' /\ Forall done s'.
Proof.
  intros q pl k. induction k as [|k IH]; intros s L N;
    (destruct (blocked_dec pl s) as [B|(n & s1 & S)];
      [exists [], s; split; [constructor|]; apply (done_when q); [exact N|]; eapply no_block; eauto|]).
  - pose proof (left_step _ _ _ _ S). lia.
  - pose proof (left_step _ _ _ _ S). destruct (IH s1) as (ns & s' & H1 & H2); [lia|eapply nested_step; eauto|].
    exists (n :: ns), s'. split; [econstructor; eauto|exact H2].
Qed.

Lemma finishes_lemma : forall q pl es, Forall (event_keeps q) es ->
  exists ns s', steps pl ns (run pl es) s' /\ Forall done s'.
Proof.
  intros q pl es F. apply (finish_from q pl (remaining (run pl es))); [lia|]. apply run_ranked. exact F.
Qed.

(** ** Standing still is for ever *)

Lemma forallb_false : forall (X : Type) (f : X -> bool) l, forallb f l = false <-> exists x, In x l /\ f x = false.
Proof.
  intros X f l. split.
  - induction l as [|a l IH]; cbn; intro H; [discriminate|]. apply andb_false_iff in H. destruct H as [H|H].
    + exists a. auto.
    + destruct (IH H) as (x & I & E). exists x. auto.
  - intros (x & I & H). destruct (forallb f l) eqn:E; [|reflexivity]. rewrite forallb_forall in E. apply E in I. congruence.
Qed.

Lemma io_more : forall pl s extra, io_free pl s = false -> io_free pl (s ++ extra) = false.
Proof.
  intros pl s extra H. unfold io_free in *. destruct (all pl).
  - apply forallb_false in H. destruct H as (i & I & H). apply forallb_false. exists i. split; [exact I|].
    apply negb_false_iff in H. rewrite existsb_app, H. reflexivity.
  - destruct (existsb (fun i => negb (existsb (holds (LIo i)) (s ++ extra))) (seq 0 num_io_threads)) eqn:E; [|reflexivity].
    apply existsb_exists in E. destruct E as (i & I & E). apply negb_true_iff in E. rewrite existsb_app in E.
    apply orb_false_iff in E. destruct E as [E _].
    assert (X : existsb (fun i => negb (existsb (holds (LIo i)) s)) (seq 0 num_io_threads) = true); [|congruence].
    apply existsb_exists. exists i. rewrite E. auto.
Qed.

Lemma can_more : forall pl s extra i, can pl s i = false -> can pl (s ++ extra) i = false.
Proof.
  intros pl s extra i H. destruct i as [m|m|m|c|c|xs]; cbn [can] in *; try discriminate.
  - apply negb_false_iff in H. rewrite existsb_app, H. reflexivity.
  - apply andb_false_iff in H. destruct H as [H|H].
    + apply negb_false_iff in H. rewrite existsb_app, H. reflexivity.
    + apply negb_false_iff in H. apply andb_true_iff in H. destruct H as [-> H].
      rewrite (existsb_app (awaits_ex m)), H. cbn. apply andb_false_r.
  - destruct xs as [|x xs]; [discriminate|]. apply andb_false_iff in H. destruct H as [H|H].
    + rewrite io_more; [reflexivity|exact H].
    + apply andb_false_iff. right. apply forallb_false in H. destruct H as (y & I & H). apply forallb_false.
      exists y. split; [exact I|]. apply negb_false_iff in H. rewrite existsb_app, H. reflexivity.
Qed.

Lemma put_app : forall n t s extra, length s <= n -> put n t (s ++ extra) = s ++ put (n - length s) t extra.
Proof.
  intros n t s. revert n. induction s as [|a s IH]; intros n extra L; cbn in *; [rewrite Nat.sub_0_r; reflexivity|].
  destruct n as [|n]; [lia|]. cbn. rewrite IH by lia. reflexivity.
Qed.

Lemma stand_still : forall pl es s extra, blocked pl s ->
  exists extra', fold_left (do_evt pl) es (s ++ extra) = s ++ extra'.
Proof.
  intros pl es. induction es as [|e es IH]; intros s extra B; cbn; [eauto|].
  destruct e as [n|l]; cbn.
  - destruct (step pl n (s ++ extra)) as [s'|] eqn:E; [|apply IH; exact B].
    apply step_inv in E. destruct E as (t & i & rest & E & T & C & ->).
    destruct (Nat.lt_ge_cases n (length s)) as [L|L].
    + exfalso. rewrite nth_error_app1 in E by exact L.
      rewrite (can_more pl s extra i) in C; [discriminate|].
      eapply step_none; eauto. eapply nth_error_In; eauto.
    + rewrite put_app by exact L. apply IH. exact B.
  - rewrite <- app_assoc. apply IH. exact B.
Qed.

Lemma spawn_length : forall pl ws s, length (fold_left (do_evt pl) (map Spawn ws) s) = length s + length ws.
Proof.
  intros pl ws. induction ws as [|w ws IH]; intro s; cbn; [lia|]. rewrite IH, app_length. cbn. lia.
Qed.

Lemma put_length : forall n t s, length (put n t s) = length s.
Proof. intros n t s. revert n. induction s as [|a s IH]; intros [|n]; cbn; auto. Qed.

Lemma run_length : forall pl ns s, length (fold_left (do_evt pl) (map Run ns) s) = length s.
Proof.
  intros pl ns. induction ns as [|n ns IH]; intro s; cbn; [reflexivity|]. rewrite IH.
  destruct (step pl n s) as [s'|] eqn:E; [|reflexivity].
  apply step_inv in E. destruct E as (t & i & rest & E & T & C & ->). apply put_length.
Qed.

Lemma standing_hangs : forall pl ws ns, standing pl (map Spawn ws ++ map Run ns) = true -> hangs pl ws.
Proof.
  intros pl ws ns H. exists ns. intro es. unfold standing in H. apply andb_true_iff in H. destruct H as [H1 H2].
  unfold run. rewrite app_assoc, fold_left_app. change (fold_left (do_evt pl) (map Spawn ws ++ map Run ns) []) with (run pl (map Spawn ws ++ map Run ns)).
  assert (LE : length (run pl (map Spawn ws ++ map Run ns)) = length ws).
  { unfold run. rewrite fold_left_app, run_length, spawn_length. reflexivity. }
  revert H1 H2 LE. generalize (run pl (map Spawn ws ++ map Run ns)). intros s H1 H2 LE.
  assert (B : blocked pl s).
  { intro n. destruct (step pl n s) as [s'|] eqn:E; [|reflexivity]. exfalso.
    rewrite forallb_forall in H2. specialize (H2 n). rewrite E in H2.
    assert (I : In n (seq 0 (length s))); [|apply H2 in I; discriminate].
    apply in_seq. apply step_inv in E. destruct E as (t & i & rest & E & _). split; [lia|]. cbn.
    apply nth_error_Some. rewrite E. discriminate. }
  destruct (stand_still pl es s [] B) as [extra E]. rewrite app_nil_r in E. rewrite E.
  apply existsb_exists in H1. destruct H1 as (t & It & Ht). exists t. split.
  - rewrite <- LE, firstn_app, firstn_all, Nat.sub_diag. cbn. rewrite app_nil_r. exact It.
  - intro Q. rewrite Q in Ht. discriminate.
Qed.


(** ** Examples *)
Lemma doneb_done : forall s, doneb s = true -> Forall done s.
Proof.
  intros s H. unfold doneb in H. apply Forall_forall. intros t I. rewrite forallb_forall in H. specialize (H t I).
  unfold done. destruct (todo t), (has t); try discriminate. auto.
Qed.

Ltac keep :=
  repeat match goal with
  | H : In _ (combine _ _) |- _ => vm_compute in H
  | H : _ \/ _ |- _ => destruct H as [H|H]
  | H : False |- _ => destruct H
  | H : (_, _) = (_, _) |- _ => injection H as ? ?; subst
  | H : In _ (_ :: _) |- _ => cbn in H
  | H : In _ [] |- _ => destruct H
  | H : _ = _ |- _ => subst
  | |- _ /\ _ => split
  | |- act_keeps _ _ => constructor; intros
  | |- may _ _ _ = true => reflexivity
  | |- finalizes _ = false => reflexivity
  end.

Lemma busy_keeps : Forall (event_keeps rules1) busy.
Proof.
  unfold busy. repeat (first [apply Forall_nil | apply Forall_cons]); cbn [event_keeps]; try exact Logic.I;
    repeat (first [apply Forall_nil | apply Forall_cons]); cbn [keeps found request answer]; intros; keep.
Qed.

Lemma find_hangs : forall pl ws k, match find_stand pl ws k with Some _ => true | None => false end = true -> hangs pl ws.
Proof.
  intros pl ws k. induction k as [|k IH]; [discriminate|]. cbn [find_stand].
  destruct (standing pl (map Spawn ws ++ map Run (first_then (S k)))) eqn:E; intro H.
  - eapply standing_hangs. exact E.
  - apply IH. exact H.
Qed.

Ltac hang := repeat split; (match goal with |- hangs ?pl _ => destruct pl as [[] []] end); apply find_hangs with (k := 60); vm_compute; reflexivity.

Lemma client_event_hangs : forall pl,
  hangs pl [[found 1 [IsConnCli 1]]] /\ hangs pl [[found 1 [SetCliEvent 1]]] /\
  hangs pl [[found 1 [CallVec 1 [] [5] true 1]]] /\ hangs pl [[broken 1 [CallAsync 1 [] [5]]]].
Proof. intro pl. hang. Qed.

Lemma client_event_order_hangs : forall pl, hangs pl [[found 1 [CallAsync 1 [] [5]]]; [broken 1 []]].
Proof. intro pl. hang. Qed.

Lemma create_in_client_event_hangs : forall pl, hangs pl [[found 1 [CreateCli 2]]] /\ hangs pl [[broken 1 [DestroyCli 2]]].
Proof. intro pl. hang. Qed.

Lemma response_hangs : forall pl,
  hangs pl [[answer 0 5 1 [SetResp 1]]] /\ hangs pl [[answer 0 5 1 [DestroyCli 1]]] /\
  hangs pl [[answer 0 5 1 [CallCb 1 [] [6] true 1 0]]] /\ hangs pl [[ask 1 5 [CallCb 1 [] [5] true 0 0]]].
Proof. intro pl. hang. Qed.

Lemma same_connection_hangs : forall pl, hangs pl [[answer 0 5 1 [CallVec 1 [] [5] false 0]]].
Proof. intro pl. hang. Qed.

Lemma four_hang : forall pl, hangs pl four.
Proof. intro pl. destruct pl as [[] []]; apply standing_hangs with (ns := concat (repeat [0; 1; 2; 3] 100)); vm_compute; reflexivity. Qed.

Lemma both_ways_hang : forall pl,
  hangs pl [[sub_lost 3 [CreateCli 2]]; [found 1 [PS (LckModel.CreateSub 4)]]] /\
  hangs pl [[found 1 [PS (LckModel.DestroySub 3)]]; [Job (PSJob (LckModel.Sample [(3, (false, true))])) [[plainly (IsConnCli 1)]]]].
Proof. intro pl. hang. Qed.

Lemma finalize_hangs : forall pl,
  hangs pl [[request 0 1 [CallVec 1 [true] [5] true 0]]; [Api (plainly (FinalizeAll [] [] [] []))]] /\
  hangs pl [[Api (plainly (FinalizeAll [1] [] [] []))]; [ask 1 5 [CreateCli 2]]].
Proof. intro pl. hang. Qed.

Lemma methods_parallel : forall pl,
  exists es i j a b, nth_error (run pl es) i = Some a /\ nth_error (run pl es) j = Some b /\ i <> j /\
    inside (KMeth 1) a /\ inside (KMeth 1) b /\
    exists es' k d,
      nth_error (run pl (es ++ Spawn [Api (plainly (SetMethod 1))] :: es')) i = Some a /\
      nth_error (run pl (es ++ Spawn [Api (plainly (SetMethod 1))] :: es')) k = Some d /\ done d.
Proof.
  intro pl. exists (map Spawn (firstn 2 four) ++ map Run (concat (repeat [0; 1] 8))), 0, 1.
  destruct pl as [[] []]; do 2 eexists; (split; [vm_compute; reflexivity|]); (split; [vm_compute; reflexivity|]);
    (split; [discriminate|]); (split; [vm_compute; auto 10|]); (split; [vm_compute; auto 10|]);
    exists (map Run [2; 2; 2]), 2; eexists; (split; [vm_compute; reflexivity|]);
    (split; [vm_compute; reflexivity|]); split; reflexivity.
Qed.

Lemma changes_lemma : forall k beh c, In c (changes k) ->
  exists m, guard c = Some m /\ In (Take m) (program [Api (Act k beh)]).
Proof.
  intros k beh c H. destruct k as [k| | | | | | | | | | | | | | |]; [destruct k|..]; cbn in H; repeat (destruct H as [<-|H]); try contradiction;
    (eexists; split; [reflexivity|vm_compute; auto 60]).
Qed.
