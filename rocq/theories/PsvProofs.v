From Verif Require Import Base Sample MsgModel MsgSpec MsgProofs PsvSpec.

Section Proto.
  Variable methods_of : nat -> list text.
  Variable full_name : nat -> text.
  Variable parse : nat -> text -> list Z -> option (list Z).
  Variable invoke : nat * nat -> text -> list Z -> list Z.
  Notation run := (pv_run methods_of full_name parse invoke).
  Notation step := (pv_step methods_of full_name parse invoke).

  Record tracks_s (os : list pvop) (s : pserver) : Prop := {
    tr_base : match pv_base s with Some _ => true | None => false end = ps_open os;
    tr_dead : pv_dead s = false;
    tr_serv : pv_service s = ps_current os;
    tr_bound : forall m, existsb (eqb m) (pv_bound s) = ps_bound methods_of os m;
    tr_meth : forall m, aget m (pv_methods s) = match find (ps_has methods_of m) (ps_types os) with Some ty => Some (ty, m) | None => None end }.
  Lemma bound_flag (m : text) (ms bs : list text) : existsb (eqb m) (fold_left (fun bs m => if existsb (eqb m) bs then bs else bs ++ [m]) ms bs) = (existsb (eqb m) ms || existsb (eqb m) bs)%bool.
  Proof.
    apply Bool.eq_iff_eq_true. rewrite Bool.orb_true_iff, bound_fold, <- (existsb_in m ms). tauto. all: exact invoke.
  Qed.
  Lemma tracks_step os s o : tracks_s os s -> ps_alive o = true -> exists s' out, step o s = Some (s', out) /\ tracks_s (os ++ [o]) s'.
  Proof.
    intros [T1 T2 T3 T4 T5] A. destruct o as [[sv|] name| | | | |m q]; try discriminate; cbn [pv_step]; rewrite ?T2.
    - eexists _, _. split; [reflexivity|]. constructor; cbn; unfold ps_open, ps_current, ps_bound, ps_since, ps_types in *; rewrite ?fold_left_app; cbn.
      + destruct (pv_base s); reflexivity.
      + reflexivity.
      + reflexivity.
      + intros m. rewrite bound_flag, T4. reflexivity.
      + intros m. rewrite methods_fold, T5. unfold ps_has at 2. destruct (existsb (eqb m) (methods_of (fst sv))); reflexivity.
    - eexists _, _. split; [reflexivity|]. constructor; cbn; unfold ps_open, ps_current, ps_bound, ps_since, ps_types in *; rewrite ?fold_left_app; cbn; auto.
    - eexists _, _. split; [reflexivity|]. constructor; cbn; unfold ps_open, ps_current, ps_bound, ps_since, ps_types in *; rewrite ?fold_left_app; cbn; auto.
    - eexists _, _. split; [reflexivity|]. constructor; cbn; unfold ps_open, ps_current, ps_bound, ps_since, ps_types in *; rewrite ?fold_left_app; cbn; auto.
    - eexists _, _. split; [reflexivity|]. constructor; cbn; unfold ps_open, ps_current, ps_bound, ps_since, ps_types in *; rewrite ?fold_left_app; cbn; auto.
  Qed.
  Lemma run_app a b s : run (a ++ b) s = match run a s with None => None | Some (s1, o1) => match run b s1 with None => None | Some (s2, o2) => Some (s2, o1 ++ o2) end end.
  Proof.
    revert s. induction a as [|o a IH]; intros s; cbn [app pv_run].
    - destruct (run b s) as [[s2 o2]|]; reflexivity.
    - destruct (step o s) as [[s1 out]|]; [|reflexivity]. rewrite IH. destruct (run a s1) as [[s2 o2]|]; [|reflexivity]. destruct (run b s2) as [[s3 o3]|]; reflexivity.
  Qed.
  Lemma tracks_run os : forallb ps_alive os = true -> exists s outs, run os pv_init = Some (s, outs) /\ tracks_s os s /\ length outs = length os.
  Proof.
    induction os as [|o os IH] using rev_ind; intros F.
    - exists pv_init, []. split; [reflexivity|]. split; [|reflexivity]. constructor; reflexivity.
    - rewrite forallb_app in F. apply andb_prop in F as [F1 F2]. cbn in F2. rewrite Bool.andb_true_r in F2.
      destruct (IH F1) as (s & outs & R & T & L). destruct (tracks_step os s o T F2) as (s' & out & E & T'). exists s', (outs ++ [out]).
      rewrite run_app, R. cbn [pv_run]. rewrite E. rewrite !app_length, L. auto.
  Qed.
  Lemma answer_tracked os s m q : tracks_s os s -> step (PRequest m q) s = Some (s, ps_answer methods_of parse invoke os m q).
  Proof.
    intros [T1 T2 T3 T4 T5]. cbn [pv_step]. f_equal. f_equal. unfold ps_answer. rewrite <- T1. destruct (pv_base s); [|reflexivity]. cbn [negb].
    rewrite T4. destruct (ps_bound methods_of os m) eqn:B; [|reflexivity]. cbn [negb]. rewrite T2. unfold pv_callback. rewrite T3, T5.
    destruct (ps_current os) as [sv|]; [|reflexivity]. destruct (find _ _) as [ty|]; [|reflexivity]. destruct (Nat.eqb ty (fst sv)); reflexivity.
  Qed.
  Lemma every_lemma os1 m q os2 s outs : forallb ps_alive os1 = true -> run (os1 ++ PRequest m q :: os2) pv_init = Some (s, outs) ->
    nth_error outs (length os1) = Some (ps_answer methods_of parse invoke os1 m q).
  Proof.
    intros F R. destruct (tracks_run os1 F) as (s1 & o1 & R1 & T & L). rewrite run_app, R1 in R. cbn [pv_run] in R. rewrite (answer_tracked os1 s1 m q T) in R.
    destruct (run os2 s1) as [[s2 o2]|]; [|discriminate]. injection R as <- <-. rewrite <- L, nth_error_app2, Nat.sub_diag by lia. reflexivity.
  Qed.
  Lemma total_lemma os : forallb ps_alive os = true -> exists s outs, run os pv_init = Some (s, outs).
  Proof. intros F. destruct (tracks_run os F) as (s & outs & R & _). eauto. Qed.
  Lemma dying_lemma os m q s outs : forallb ps_alive os = true -> run (os ++ [PDie; PRequest m q; PGone; PRequest m q]) pv_init = Some (s, outs) ->
    exists outs0, outs = outs0 ++ [PUnit true; (if ps_open os then if ps_bound methods_of os m then PUb else PNoMethod else PClosed); PUnit true; PClosed].
  Proof.
    intros F R. destruct (tracks_run os F) as (s1 & o1 & R1 & [T1 T2 T3 T4 T5] & L). rewrite run_app, R1 in R. cbn [pv_run pv_step] in R. rewrite T2 in R. cbn in R.
    injection R as <- <-. exists o1. rewrite T4, <- T1. destruct (pv_base s1); reflexivity.
  Qed.
  Lemma find_has m l : existsb (ps_has methods_of m) l = true -> exists ty, find (ps_has methods_of m) l = Some ty.
  Proof. induction l as [|x l IH]; cbn; [discriminate|]. destruct (ps_has methods_of m x); [eauto|exact IH]. Qed.
  Lemma since_types os m : ps_bound methods_of os m = true -> existsb (ps_has methods_of m) (ps_types os) = true.
  Proof.
    unfold ps_bound. induction os as [|o os IH] using rev_ind; cbn; [discriminate|]. unfold ps_since, ps_types in *. rewrite !fold_left_app. cbn.
    destruct o as [[sv|] name| | | | |]; auto; try discriminate. cbn. destruct (ps_has methods_of m (fst sv)); auto.
  Qed.
  Lemma undefined_lemma os m q : ps_answer methods_of parse invoke os m q = PUb <->
    ps_open os = true /\ ps_bound methods_of os m = true /\ exists sv ty, ps_current os = Some sv /\ find (ps_has methods_of m) (ps_types os) = Some ty /\ ty <> fst sv.
  Proof.
    unfold ps_answer. split.
    - destruct (ps_open os); [|discriminate]. destruct (ps_bound methods_of os m); [|discriminate]. cbn. destruct (ps_current os) as [sv|]; [|discriminate].
      destruct (find _ _) as [ty|]; [|discriminate]. destruct (Nat.eqb_spec ty (fst sv)); [destruct (parse ty m q); discriminate|]. intros _. repeat split; auto. exists sv, ty. auto.
    - intros (-> & -> & sv & ty & -> & -> & N). cbn. apply Nat.eqb_neq in N. rewrite N. reflexivity.
  Qed.
  Lemma one_types ty os : ps_one ty os -> Forall (fun t => t = ty) (ps_types os) /\ (forall sv, ps_current os = Some sv -> fst sv = ty).
  Proof.
    induction os as [|o os IH] using rev_ind; intros O; [split; [constructor|discriminate]|].
    destruct IH as [I1 I2]; [intros x H; apply O, in_app_iff; auto|]. specialize (O o ltac:(apply in_app_iff; right; left; reflexivity)).
    unfold ps_types, ps_current in *. rewrite !fold_left_app. cbn. destruct o as [[sv|] name| | | | |]; split; auto; try discriminate.
    intros x H. congruence.
  Qed.
  Lemma one_lemma ty os m q : ps_one ty os -> ps_open os = true ->
    ps_answer methods_of parse invoke os m q =
      if ps_bound methods_of os m then match ps_current os with Some sv => match parse ty m q with Some x => PAnswer 0 (invoke sv m x) | None => PAnswer (-1) [] end | None => PAnswer (-1) [] end
      else PNoMethod.
  Proof.
    intros O Op. destruct (one_types ty os O) as [I1 I2]. unfold ps_answer. rewrite Op. cbn. destruct (ps_bound methods_of os m) eqn:B; [|reflexivity]. cbn.
    destruct (ps_current os) as [sv|] eqn:C; [|reflexivity]. destruct (find_has m _ (since_types os m B)) as [t E]. rewrite E. apply find_some in E as [E _].
    rewrite Forall_forall in I1. rewrite (I1 t E), (I2 sv eq_refl), Nat.eqb_refl. reflexivity.
  Qed.
End Proto.
