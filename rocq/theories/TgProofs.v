From Coq Require Import List Bool ZArith Lia.
From Verif Require Import Base TgModel TgSpec.
Import ListNotations.

Lemma provides_in : forall m y, provides m y = true <-> In y (tm_symbols m).
Proof.
  intros m y. unfold provides. rewrite existsb_exists. split.
  - intros (x & H & E). assert (y = x) by (destruct y, x; cbn in E; congruence). subst. exact H.
  - intro H. exists y. split; [exact H|]. destruct y; reflexivity.
Qed.

Lemma tg_run_app : forall files a b s, tg_run files s (a ++ b) =
  match tg_run files s a with
  | None => None
  | Some (zs, es, s1) => match tg_run files s1 b with
                         | None => None
                         | Some (zs2, es2, s2) => Some (zs ++ zs2, es ++ es2, s2)
                         end
  end.
Proof.
  intros files a b. induction a as [|o a IH]; intro s; cbn [tg_run app].
  - destruct (tg_run files s b) as [[[zs es] s2]|]; reflexivity.
  - destruct (tg_step files s o) as [z es s1|]; [|reflexivity]. rewrite IH.
    destruct (tg_run files s1 a) as [[[zs1 es1] s2]|]; [|reflexivity].
    destruct (tg_run files s2 b) as [[[zs2 es2] s3]|]; [|reflexivity].
    rewrite app_assoc. reflexivity.
Qed.

Lemma tg_run_snoc : forall files a o s zs es s',
  tg_run files s (a ++ [o]) = Some (zs, es, s') ->
  exists zs1 es1 s1 z es2, tg_run files s a = Some (zs1, es1, s1)
    /\ tg_step files s1 o = RGood z es2 s' /\ zs = zs1 ++ [z] /\ es = es1 ++ es2.
Proof.
  intros files a o s zs es s' E. rewrite tg_run_app in E.
  destruct (tg_run files s a) as [[[zs1 es1] s1]|]; [|discriminate].
  cbn [tg_run] in E. destruct (tg_step files s1 o) as [z es2 s2|] eqn:Eo; [|discriminate].
  injection E as <- <- <-. exists zs1, es1, s1, z, es2. rewrite app_nil_r. auto.
Qed.

(** the interfaces come from the files *)
Record ginv (files : nat -> option tmodule) (s : gate_state) : Prop := {
  gi_rt : forall m, tg_rt s = Some m -> exists n, files n = Some m;
  gi_rp : forall m, tg_rp s = Some m -> exists n, files n = Some m;
  gi_irt : tg_init_rt s = true -> tg_rt s <> None;
  gi_irp : tg_init_rp s = true -> tg_rp s <> None;
  gi_lrt : tg_loaded_rt s = true -> tg_rt s <> None;
  gi_lrp : tg_loaded_rp s = true -> tg_rp s <> None
}.

Lemma load_ok : forall files name i j b, load_module files name i = (j, b) ->
  (forall m, i = Some m -> exists n, files n = Some m) ->
  (forall m, j = Some m -> exists n, files n = Some m) /\ (b = true -> j <> None).
Proof.
  intros files name i j b E H. unfold load_module in E.
  destruct (Nat.eqb name 0); [injection E as <- <-; split; [exact H|discriminate]|].
  destruct i as [m|]; [injection E as <- <-; split; [exact H|discriminate]|].
  destruct (files name) as [m|] eqn:F; injection E as <- <-.
  - split; [intros m' [= <-]; eauto|discriminate].
  - split; discriminate.
Qed.

Lemma ginv_start : forall files mode name s z es s', ginv files s ->
  tg_start files mode name s = RGood z es s' -> ginv files s'.
Proof.
  intros files mode name s z es s' [G1 G2 G3 G4 G5 G6] E. unfold tg_start in E.
  destruct (tg_created s); [injection E as <- <- <-; constructor; assumption|].
  destruct (match mode with SReal => load_module files name (tg_rt s) | _ => (tg_rt s, tg_loaded_rt s) end)
    as [rt lrt] eqn:Ert.
  destruct (match mode with SReplay => load_module files name (tg_rp s) | _ => (tg_rp s, tg_loaded_rp s) end)
    as [rp lrp] eqn:Erp.
  assert (A : (forall m, rt = Some m -> exists n, files n = Some m) /\ (lrt = true -> rt <> None)).
  { destruct mode; try (injection Ert as <- <-; auto; fail). eapply load_ok; eauto. }
  assert (B : (forall m, rp = Some m -> exists n, files n = Some m) /\ (lrp = true -> rp <> None)).
  { destruct mode; try (injection Erp as <- <-; auto; fail). eapply load_ok; eauto. }
  destruct A as [A1 A2], B as [B1 B2].
  destruct rt as [m1|], rp as [m2|];
    repeat match type of E with
    | context[provides ?m YInit] => destruct (provides m YInit)
    end; injection E as <- <- <-; constructor; cbn; auto; discriminate.
Qed.

Lemma ginv_step : forall files o s z es s', ginv files s -> tg_step files s o = RGood z es s' -> ginv files s'.
Proof.
  intros files o s z es s' G E. destruct o; cbn [tg_step] in E.
  - eapply ginv_start; eauto.
  - destruct G as [G1 G2 G3 G4 G5 G6]. unfold tg_stop in E.
    repeat match type of E with context[match ?x with _ => _ end] => destruct x end;
      try discriminate; injection E as <- <- <-; constructor; cbn; auto; discriminate.
  - unfold tg_now, tg_ask in E.
    repeat match type of E with context[match ?x with _ => _ end] => destruct x end; try discriminate;
    injection E as <- <- <-; exact G.
  - unfold tg_sync, tg_ask in E.
    repeat match type of E with context[match ?x with _ => _ end] => destruct x end; try discriminate;
    injection E as <- <- <-; exact G.
  - unfold tg_status in E.
    repeat match type of E with context[match ?x with _ => _ end] => destruct x end; try discriminate;
    injection E as <- <- <-; exact G.
Qed.

Lemma ginv_init : forall files, ginv files gate_init.
Proof. intro files. constructor; cbn; discriminate. Qed.

Lemma ginv_run : forall files os zs es s, tg_run files gate_init os = Some (zs, es, s) -> ginv files s.
Proof.
  intros files. induction os as [|o os IH] using rev_ind; intros zs es s E.
  - injection E as <- <- <-. apply ginv_init.
  - apply tg_run_snoc in E as (zs1 & es1 & s1 & z & es2 & E1 & E2 & _ & _). eapply ginv_step; eauto.
Qed.

Lemma in_use_from : forall files s m b, ginv files s -> in_use s = (Some m, b) -> exists n, files n = Some m.
Proof.
  intros files s m b G E. unfold in_use in E.
  destruct (tg_mode s); [discriminate| |]; injection E as E _; destruct G; eauto.
Qed.

Lemma step_good : forall files o s, well_made files -> ginv files s -> tg_step files s o <> RNull.
Proof.
  intros files o s W G.
  assert (P : forall m y, (exists n, files n = Some m) -> provides m y = true).
  { intros m y [n H]. apply provides_in. eapply W; eauto. }
  assert (Q : forall y v, tg_ask y v s <> RNull).
  { intros y v. unfold tg_ask. destruct (negb (tg_created s)); [discriminate|].
    destruct (in_use s) as [[m|] [|]] eqn:U; try discriminate.
    rewrite (P m y); [discriminate|]. eapply in_use_from; eauto. }
  destruct o; cbn [tg_step].
  - unfold tg_start. destruct (tg_created s); [discriminate|].
    repeat match goal with |- context[match ?x with _ => _ end] =>
      match type of x with prod _ _ => destruct x end end; discriminate.
  - unfold tg_stop. destruct (negb (tg_created s)); [discriminate|].
    destruct (in_use s) as [[m|] [|]] eqn:U; try discriminate.
    rewrite (P m YFinal); [discriminate|]. eapply in_use_from; eauto.
  - apply Q.
  - apply Q.
  - unfold tg_status. destruct (negb (tg_created s)); [discriminate|].
    destruct G as [G1 G2 G3 G4 G5 G6]. destruct (tg_mode s); [discriminate| |].
    + destruct (tg_loaded_rt s); cbn; [|discriminate]. destruct (tg_rt s) as [m|]; [|exfalso; apply G5; auto].
      rewrite (P m YStatus) by eauto. discriminate.
    + destruct (tg_loaded_rp s); cbn; [|discriminate]. destruct (tg_rp s) as [m|]; [|exfalso; apply G6; auto].
      rewrite (P m YStatus) by eauto. discriminate.
Qed.

Theorem no_null_lemma : forall files os, well_made files -> tg_run files gate_init os <> None.
Proof.
  intros files os W. induction os as [|o os IH] using rev_ind; [discriminate|].
  rewrite tg_run_app. destruct (tg_run files gate_init os) as [[[zs es] s]|] eqn:E; [|congruence].
  cbn [tg_run]. pose proof (step_good files o s W (ginv_run _ _ _ _ _ E)) as H.
  destruct (tg_step files s o); [discriminate|congruence].
Qed.

(** * Which module answers *)

Lemma started_app : forall a b c, started (a ++ b) c = started b (started a c).
Proof.
  induction a as [|o a IH]; intros b c; [reflexivity|]. destruct o; cbn [started app]; apply IH.
Qed.

Record ainv (files : nat -> option tmodule) (os : list tg_op) (s : gate_state) : Prop := {
  ai_cur : match started os None with
           | None => tg_created s = false
           | Some (mode, name) => tg_created s = true /\ tg_mode s = mode
           end;
  ai_rt : forall name, name <> 0 -> one_name SReal name os -> tg_rt s = None \/ tg_rt s = files name;
  ai_rp : forall name, name <> 0 -> one_name SReplay name os -> tg_rp s = None \/ tg_rp s = files name;
  ai_now : forall mode name m, started os None = Some (mode, name) -> mode <> SNone -> name <> 0 ->
           one_name mode name os -> files name = Some m -> provides m YInit = true ->
           in_use s = (Some m, Z.eqb (tm_init m) 0)
}.

Lemma one_name_app : forall mode name a b, one_name mode name (a ++ b) -> one_name mode name a /\ one_name mode name b.
Proof. intros mode name a b H. split; intros n Hn; apply H, in_or_app; auto. Qed.

Lemma ainv_same : forall files os o s, ainv files os s -> started (os ++ [o]) None = started os None ->
  (forall mode n, o = XStart mode n -> exists c, started os None = Some c) -> ainv files (os ++ [o]) s.
Proof.
  intros files os o s [A1 A2 A3 A4] E _. constructor.
  - rewrite E. exact A1.
  - intros name N H. apply A2; [exact N|]. apply one_name_app in H as [H _]. exact H.
  - intros name N H. apply A3; [exact N|]. apply one_name_app in H as [H _]. exact H.
  - intros mode name m S M N H. rewrite E in S. apply one_name_app in H as [H _]. eapply A4; eauto.
Qed.

Lemma load_named : forall files name i, (i = None \/ i = files name) -> name <> 0 ->
  fst (load_module files name i) = files name.
Proof.
  intros files name i H N. unfold load_module. destruct (Nat.eqb_spec name 0); [congruence|].
  destruct i as [m|]; [destruct H as [H|H]; [discriminate|cbn; exact H]|].
  destruct (files name); reflexivity.
Qed.

Lemma ainv_run : forall files os zs es s, tg_run files gate_init os = Some (zs, es, s) -> ainv files os s.
Proof.
  intros files. induction os as [|o os IH] using rev_ind; intros zs es s E.
  - injection E as <- <- <-. constructor; cbn; auto; discriminate.
  - apply tg_run_snoc in E as (zs1 & es1 & s1 & z & es2 & E1 & E2 & _ & _).
    specialize (IH _ _ _ E1). pose proof IH as [A1 A2 A3 A4].
    destruct o as [mode name| | | |]; cbn [tg_step] in E2.
    + unfold tg_start in E2. destruct (tg_created s1) eqn:Cr.
      * injection E2 as <- <- <-. destruct (started os None) as [c|] eqn:S; [|congruence].
        apply ainv_same; [exact IH| |eauto]. rewrite started_app, S. reflexivity.
      * destruct (started os None) as [[m0 n0]|] eqn:S; [destruct A1; congruence|].
        destruct (match mode with SReal => load_module files name (tg_rt s1) | _ => (tg_rt s1, tg_loaded_rt s1) end)
          as [rt lrt] eqn:Ert.
        destruct (match mode with SReplay => load_module files name (tg_rp s1) | _ => (tg_rp s1, tg_loaded_rp s1) end)
          as [rp lrp] eqn:Erp.
        assert (R1 : forall nm, nm <> 0 -> one_name SReal nm (os ++ [XStart mode name]) ->
                     (rt = None \/ rt = files nm) /\ (mode = SReal -> rt = files nm)).
        { intros nm N H. apply one_name_app in H as [H1 H2]. specialize (A2 nm N H1).
          destruct mode; try (injection Ert as <- <-; split; [exact A2|discriminate]).
          assert (name = nm) by (apply H2; left; reflexivity). subst nm.
          pose proof (load_named files name (tg_rt s1) A2 N) as L. rewrite Ert in L. cbn in L. auto. }
        assert (R2 : forall nm, nm <> 0 -> one_name SReplay nm (os ++ [XStart mode name]) ->
                     (rp = None \/ rp = files nm) /\ (mode = SReplay -> rp = files nm)).
        { intros nm N H. apply one_name_app in H as [H1 H2]. specialize (A3 nm N H1).
          destruct mode; try (injection Erp as <- <-; split; [exact A3|discriminate]).
          assert (name = nm) by (apply H2; left; reflexivity). subst nm.
          pose proof (load_named files name (tg_rp s1) A3 N) as L. rewrite Erp in L. cbn in L. auto. }
        assert (X : exists irt irp, s = mkGate true mode (match mode with SNone => 0 | _ => name end) rt rp irt irp lrt lrp
                    /\ (forall m, rt = Some m -> provides m YInit = true -> irt = Z.eqb (tm_init m) 0)
                    /\ (forall m, rp = Some m -> provides m YInit = true -> irp = Z.eqb (tm_init m) 0)).
        { destruct rt as [m1|], rp as [m2|]; cbv zeta in E2;
          repeat match type of E2 with
          | context[provides ?m YInit] => let P := fresh "P" in destruct (provides m YInit) eqn:P
          end; injection E2 as <- <- <-; do 2 eexists; split; [reflexivity|..]; 
          split; intros m Hm Pm; try discriminate; injection Hm as <-; congruence. }
        destruct X as (irt & irp & -> & X1 & X2).
        constructor; cbn [tg_rt tg_rp tg_created tg_mode].
        -- rewrite started_app, S. cbn. auto.
        -- intros nm N H. apply R1; auto.
        -- intros nm N H. apply R2; auto.
        -- intros mode' name' m S' M N H F P. rewrite started_app, S in S'. cbn in S'. injection S' as <- <-.
           unfold in_use. cbn [tg_mode tg_rt tg_rp tg_init_rt tg_init_rp].
           destruct mode; [congruence| |].
           ++ destruct (R1 name N H) as [_ R]. specialize (R eq_refl). rewrite F in R. subst rt.
              rewrite (X1 m eq_refl P). reflexivity.
           ++ destruct (R2 name N H) as [_ R]. specialize (R eq_refl). rewrite F in R. subst rp.
              rewrite (X2 m eq_refl P). reflexivity.
    + assert (E3 : tg_created s = false /\ tg_rt s = tg_rt s1 /\ tg_rp s = tg_rp s1).
      { unfold tg_stop in E2. destruct (tg_created s1) eqn:Cr; cbn [negb] in E2.
        - destruct (in_use s1) as [[m|] [|]]; [destruct (provides m YFinal); [|discriminate]| | |];
            injection E2 as <- <- <-; cbn; auto.
        - injection E2 as <- <- <-. auto. }
      destruct E3 as (E3 & E4 & E5).
      constructor; rewrite ?started_app; cbn [started]; try exact E3; try discriminate.
      * intros nm N H. rewrite E4. apply A2; [exact N|]. apply one_name_app in H as [H _]. exact H.
      * intros nm N H. rewrite E5. apply A3; [exact N|]. apply one_name_app in H as [H _]. exact H.
    + assert (s = s1).
      { unfold tg_now, tg_ask in E2.
        repeat match type of E2 with context[match ?x with _ => _ end] => destruct x end; try discriminate;
        injection E2 as <- <- <-; reflexivity. }
      subst s1. apply ainv_same; [exact IH|rewrite started_app; reflexivity|discriminate].
    + assert (s = s1).
      { unfold tg_sync, tg_ask in E2.
        repeat match type of E2 with context[match ?x with _ => _ end] => destruct x end; try discriminate;
        injection E2 as <- <- <-; reflexivity. }
      subst s1. apply ainv_same; [exact IH|rewrite started_app; reflexivity|discriminate].
    + assert (s = s1).
      { unfold tg_status in E2.
        repeat match type of E2 with context[match ?x with _ => _ end] => destruct x end; try discriminate;
        injection E2 as <- <- <-; reflexivity. }
      subst s1. apply ainv_same; [exact IH|rewrite started_app; reflexivity|discriminate].
Qed.

Theorem answers_lemma : forall files os mode name m zs es s z, well_made files ->
  tg_run files gate_init (os ++ [XNow]) = Some (zs ++ [z], es, s) ->
  started os None = Some (mode, name) -> mode <> SNone -> name <> 0 -> one_name mode name os ->
  files name = Some m ->
  z = if Z.eqb (tm_init m) 0 then tm_now m else 0%Z.
Proof.
  intros files os mode name m zs es s z W E S M N O F.
  apply tg_run_snoc in E as (zs1 & es1 & s1 & z1 & es2 & E1 & E2 & Ez & _).
  apply app_inj_tail in Ez as [_ ->].
  pose proof (ainv_run _ _ _ _ _ E1) as [A1 _ _ A4].
  assert (P : forall y, provides m y = true) by (intro y; apply provides_in; eapply W; eauto).
  specialize (A4 mode name m S M N O F (P YInit)). rewrite S in A1. destruct A1 as [Cr _].
  cbn [tg_step] in E2. unfold tg_now, tg_ask in E2. rewrite Cr, A4 in E2. cbn [negb] in E2.
  destruct (Z.eqb (tm_init m) 0).
  - rewrite P in E2. injection E2 as <- _ _. reflexivity.
  - injection E2 as <- _ _. reflexivity.
Qed.

Theorem unstarted_lemma : forall files os zs es s z,
  tg_run files gate_init (os ++ [XNow]) = Some (zs ++ [z], es, s) ->
  started os None = None -> z = 0%Z.
Proof.
  intros files os zs es s z E S.
  apply tg_run_snoc in E as (zs1 & es1 & s1 & z1 & es2 & E1 & E2 & Ez & _).
  apply app_inj_tail in Ez as [_ ->].
  pose proof (ainv_run _ _ _ _ _ E1) as [A1 _ _ _]. rewrite S in A1.
  cbn [tg_step] in E2. unfold tg_now, tg_ask in E2. rewrite A1 in E2. cbn [negb] in E2. congruence.
Qed.

(** * initialize and finalize *)

Lemma open_app : forall r a b, open_inits r (a ++ b) = (open_inits r a + open_inits r b)%Z.
Proof. intros r. induction a as [|e a IH]; intro b; [reflexivity|]. destruct e; cbn [open_inits app]; rewrite IH; lia. Qed.

Definition succeeds (files : nat -> option tmodule) : Prop :=
  forall n m, files n = Some m -> tm_init m = 0%Z.

Definition same_mode (mode : sync_mode) (os : list tg_op) : Prop :=
  forall md n, In (XStart md n) os -> md = mode.

Ltac seven := refine (conj _ (conj _ (conj _ (conj _ (conj _ (conj _ _)))))); auto; try congruence; try lia; try discriminate; try tauto.

Lemma balanced_inv : forall files mode os zs es s, well_made files -> succeeds files ->
  same_mode mode os -> tg_run files gate_init os = Some (zs, es, s) ->
  open_inits (match mode with SReplay => true | _ => false end) es
    = (if tg_created s then if snd (in_use s) then 1 else 0 else 0)%Z
  /\ open_inits (match mode with SReplay => false | _ => true end) es = 0%Z
  /\ (tg_created s = true -> tg_mode s = mode)
  /\ (mode <> SReal -> tg_rt s = None) /\ (mode <> SReplay -> tg_rp s = None)
  /\ (tg_created s = false -> tg_init_rt s = false /\ tg_init_rp s = false)
  /\ (tg_created s = true -> mode <> SNone -> fst (in_use s) = None -> snd (in_use s) = false).
Proof.
  intros files mode os zs es s W Su. revert zs es s.
  induction os as [|o os IH] using rev_ind; intros zs es s SM E.
  - injection E as <- <- <-. cbn. destruct mode; seven.
  - pose proof (ginv_run _ _ _ _ _ E) as G'.
    apply tg_run_snoc in E as (zs1 & es1 & s1 & z & es2 & E1 & E2 & _ & ->).
    assert (SM1 : same_mode mode os) by (intros md n H; eapply SM, in_or_app; left; exact H).
    destruct (IH _ _ _ SM1 E1) as (I1 & I2 & I3 & I4 & I5 & I6 & I7).
    pose proof (ginv_run _ _ _ _ _ E1) as G.
    rewrite !open_app.
    destruct o as [md name| | | |]; cbn [tg_step] in E2.
    + assert (md = mode) by (eapply SM, in_or_app; right; left; reflexivity). subst md.
      unfold tg_start in E2. destruct (tg_created s1) eqn:Cr.
      { injection E2 as <- <- <-. cbn [open_inits]. rewrite !Z.add_0_r, Cr. seven. }
      destruct (I6 eq_refl) as [J1 J2].
      assert (Ld : forall i j b, load_module files name i = (j, b) -> (forall m, i = Some m -> exists n, files n = Some m) ->
                 forall m, j = Some m -> provides m YInit = true /\ Z.eqb (tm_init m) 0 = true).
      { intros i j b Eq H m ->. destruct (load_ok _ _ _ _ _ Eq H) as [H1 _]. destruct (H1 m eq_refl) as [n F].
        split; [apply provides_in; eapply W; eauto|rewrite (Su n m F); reflexivity]. }
      destruct mode.
      * rewrite I4, I5 in E2 by discriminate. cbn in E2. injection E2 as <- <- <-. cbn.
        rewrite I1, I2. seven.
      * rewrite (I5 ltac:(discriminate)) in E2.
        destruct (load_module files name (tg_rt s1)) as [rt lrt] eqn:L.
        destruct rt as [m|].
        -- destruct (Ld _ _ _ L (gi_rt _ _ G) m eq_refl) as [P Q]. cbn in E2. rewrite P, Q in E2.
           injection E2 as <- <- <-. cbn. rewrite I1, I2. seven.
        -- cbn in E2. injection E2 as <- <- <-. cbn. rewrite I1, I2. seven.
      * rewrite (I4 ltac:(discriminate)) in E2.
        destruct (load_module files name (tg_rp s1)) as [rp lrp] eqn:L.
        destruct rp as [m|].
        -- destruct (Ld _ _ _ L (gi_rp _ _ G) m eq_refl) as [P Q]. cbn in E2. rewrite P, Q in E2.
           injection E2 as <- <- <-. cbn. rewrite I1, I2. seven.
        -- cbn in E2. injection E2 as <- <- <-. cbn. rewrite I1, I2. seven.
    + unfold tg_stop in E2. destruct (tg_created s1) eqn:Cr; cbn [negb] in E2.
      * specialize (I3 eq_refl). rewrite I3 in E2.
        destruct (in_use s1) as [[m|] b] eqn:U; cbn [fst snd] in *.
        -- destruct b.
           ++ destruct (provides m YFinal); [|discriminate]. injection E2 as <- <- <-. cbn.
              unfold in_use in U. rewrite I3 in U.
              destruct mode; cbn; try discriminate; seven.
           ++ injection E2 as <- <- <-. cbn. seven.
        -- assert (b = false).
           { destruct mode; [unfold in_use in U; rewrite I3 in U; congruence|apply I7; congruence|apply I7; congruence]. }
           subst b. injection E2 as <- <- <-. cbn. seven.
      * injection E2 as <- <- <-. cbn [open_inits]. rewrite !Z.add_0_r, Cr. seven.
    + assert (s = s1 /\ es2 = []) as [-> ->].
      { unfold tg_now, tg_ask in E2.
        repeat match type of E2 with context[match ?x with _ => _ end] => destruct x end; try discriminate;
        injection E2 as <- <- <-; auto. }
      cbn [open_inits]. rewrite !Z.add_0_r. auto 10.
    + assert (s = s1 /\ es2 = []) as [-> ->].
      { unfold tg_sync, tg_ask in E2.
        repeat match type of E2 with context[match ?x with _ => _ end] => destruct x end; try discriminate;
        injection E2 as <- <- <-; auto. }
      cbn [open_inits]. rewrite !Z.add_0_r. auto 10.
    + assert (s = s1 /\ es2 = []) as [-> ->].
      { unfold tg_status in E2.
        repeat match type of E2 with context[match ?x with _ => _ end] => destruct x end; try discriminate;
        injection E2 as <- <- <-; auto. }
      cbn [open_inits]. rewrite !Z.add_0_r. auto 10.
Qed.

Theorem balanced_lemma : forall files mode os zs es s, well_made files ->
  (forall n m, files n = Some m -> tm_init m = 0%Z) ->
  (forall md n, In (XStart md n) os -> md = mode) ->
  tg_run files gate_init (os ++ [XStop]) = Some (zs, es, s) ->
  forall replay, open_inits replay es = 0%Z.
Proof.
  intros files mode os zs es s W Su SM E replay.
  assert (SM2 : same_mode mode (os ++ [XStop])).
  { intros md n H. apply in_app_or in H as [H|[H|[]]]; [eapply SM; eauto|discriminate]. }
  destruct (balanced_inv files mode _ _ _ _ W Su SM2 E) as (I1 & I2 & _).
  assert (Cr : tg_created s = false).
  { pose proof (ainv_run _ _ _ _ _ E) as [A1 _ _ _]. rewrite started_app in A1. exact A1. }
  rewrite Cr in I1. destruct mode, replay; auto.
Qed.

(** * The status *)
Definition loaded (mode : sync_mode) (s : gate_state) : bool :=
  match mode with SNone => true | SReal => tg_loaded_rt s | SReplay => tg_loaded_rp s end.

Lemma well_complete : forall files n m, well_made files -> files n = Some m -> complete m = true.
Proof.
  intros files n m W F. unfold complete. apply forallb_forall. intros y _. apply provides_in. eapply W; eauto.
Qed.

Lemma loaded_run : forall files os zs es s mode name m, well_made files ->
  tg_run files gate_init os = Some (zs, es, s) -> started os None = Some (mode, name) -> name <> 0 ->
  files name = Some m -> loaded mode s = true.
Proof.
  intros files os zs es s mode name m W. revert zs es s.
  induction os as [|o os IH] using rev_ind; intros zs es s E St N F; [discriminate|].
  apply tg_run_snoc in E as (zs1 & es1 & s1 & z & es2 & E1 & E2 & _ & _).
  pose proof (ai_cur _ _ _ (ainv_run _ _ _ _ _ E1)) as C. rewrite started_app in St.
  destruct o as [mode' name'| | | |]; cbn [tg_step started] in E2, St.
  - unfold tg_start in E2. destruct (started os None) as [[m0 n0]|].
    + destruct C as [C _]. rewrite C in E2. injection E2 as <- <- <-. injection St as -> ->. eapply IH; eauto.
    + rewrite C in E2. injection St as -> ->.
      assert (L : forall i, snd (load_module files name i) = true).
      { intro i. unfold load_module. destruct (Nat.eqb_spec name 0); [congruence|]. destruct i; [reflexivity|].
        rewrite F. exact (well_complete _ _ _ W F). }
      destruct mode; [reflexivity| |].
      * pose proof (L (tg_rt s1)) as L1. destruct (load_module files name (tg_rt s1)) as [rt lrt].
        repeat match type of E2 with context[match ?x with _ => _ end] => destruct x end; injection E2 as <- <- <-; exact L1.
      * pose proof (L (tg_rp s1)) as L1. destruct (load_module files name (tg_rp s1)) as [rp lrp].
        repeat match type of E2 with context[match ?x with _ => _ end] => destruct x end; injection E2 as <- <- <-; exact L1.
  - discriminate.
  - assert (s = s1) as ->.
    { unfold tg_now, tg_ask in E2.
      repeat match type of E2 with context[match ?x with _ => _ end] => destruct x end; try discriminate; injection E2 as <- <- <-; reflexivity. }
    eapply IH; eauto.
  - assert (s = s1) as ->.
    { unfold tg_sync, tg_ask in E2.
      repeat match type of E2 with context[match ?x with _ => _ end] => destruct x end; try discriminate; injection E2 as <- <- <-; reflexivity. }
    eapply IH; eauto.
  - assert (s = s1) as ->.
    { unfold tg_status in E2.
      repeat match type of E2 with context[match ?x with _ => _ end] => destruct x end; try discriminate; injection E2 as <- <- <-; reflexivity. }
    eapply IH; eauto.
Qed.

Theorem status_lemma : forall files os mode name m zs es s z, well_made files ->
  tg_run files gate_init (os ++ [XStatus]) = Some (zs ++ [z], es, s) ->
  started os None = Some (mode, name) -> mode <> SNone -> name <> 0 -> one_name mode name os ->
  files name = Some m -> z = tm_error m.
Proof.
  intros files os mode name m zs es s z W E St M N O F.
  apply tg_run_snoc in E as (zs1 & es1 & s1 & z1 & es2 & E1 & E2 & Ez & _).
  apply app_inj_tail in Ez as [_ ->].
  pose proof (loaded_run _ _ _ _ _ _ _ _ W E1 St N F) as L.
  pose proof (ainv_run _ _ _ _ _ E1) as [A1 _ _ A4].
  assert (P : forall y, provides m y = true) by (intro y; apply provides_in; eapply W; eauto).
  specialize (A4 mode name m St M N O F (P YInit)). rewrite St in A1. destruct A1 as [Cr Md].
  cbn [tg_step] in E2. unfold tg_status in E2. unfold in_use in A4. rewrite Md in A4. rewrite Cr, Md in E2. cbn [negb] in E2.
  destruct mode; [congruence| |]; cbn [loaded] in L; rewrite L in E2; cbn [negb] in E2; injection A4 as A4 _; rewrite A4, P in E2; congruence.
Qed.

Theorem no_status_lemma : forall files os zs es s z,
  tg_run files gate_init (os ++ [XStatus]) = Some (zs ++ [z], es, s) ->
  (started os None = None -> z = (-1)%Z) /\ (forall name, started os None = Some (SNone, name) -> z = 0%Z).
Proof.
  intros files os zs es s z E.
  apply tg_run_snoc in E as (zs1 & es1 & s1 & z1 & es2 & E1 & E2 & Ez & _).
  apply app_inj_tail in Ez as [_ ->].
  pose proof (ainv_run _ _ _ _ _ E1) as [A1 _ _ _].
  cbn [tg_step] in E2. unfold tg_status in E2.
  split; [intro St|intros name St]; rewrite St in A1.
  - rewrite A1 in E2. cbn [negb] in E2. congruence.
  - destruct A1 as [Cr Md]. rewrite Cr, Md in E2. cbn [negb] in E2. congruence.
Qed.
