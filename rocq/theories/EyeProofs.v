From Coq Require Import Bool Sorting.Sorted.
From Verif Require Import Base Sample ExpMapModel ExpMapSpec ExpMapProofs RegModel PbModel PbSpec SerModel SerSpec SerProofs UdpModel UdpSpec UdpProofs
  DscModel DscSpec DscProofs MonModel MonSpec MonProofs EyeModel EyeSpec.
From Verif Require NetModel NetProofs SdsModel.

(** ** Times *)
Lemma upwards_sorted l : upwards l <-> StronglySorted Z.le l.
Proof.
  induction l as [|a l IH]; [split; [constructor|exact (fun _ => Logic.I)]|]. destruct l as [|b l].
  - split; [repeat constructor|exact (fun _ => Logic.I)].
  - rewrite upwards_cons, IH. split.
    + intros [L S]. constructor; [exact S|]. constructor; [exact L|]. inversion S as [|? ? _ F]; subst. eapply Forall_impl; [|exact F]. cbn. lia.
    + intros S. inversion S as [|? ? S' F]; subst. inversion F; subst. auto.
Qed.
Lemma sorted_app_r (a b : list Z) : StronglySorted Z.le (a ++ b) -> StronglySorted Z.le b.
Proof. induction a as [|x a IH]; cbn; [auto|]. intros S. inversion S; auto. Qed.
Lemma sorted_le (a b : list Z) x y : StronglySorted Z.le (a ++ b) -> In x a -> In y b -> (x <= y)%Z.
Proof.
  induction a as [|z a IH]; cbn; [intros _ []|]. intros S [<-|I1] I2.
  - inversion S as [|? ? _ F]; subst. rewrite Forall_forall in F. apply F. apply in_app_iff. auto.
  - inversion S; auto.
Qed.
Lemma ytimes_app p a b : ytimes p (a ++ b) = ytimes p a ++ ytimes p b.
Proof. unfold ytimes. apply flat_map_app. Qed.

(** ** Datagrams and what of them arrives *)
Lemma announces_is k m : sm_cmd m = announces k -> arrives m =
  Sample (match k with KProcess => [] | _ => sm_entity m end) (sm_pid m) (sm_host m) (sm_cmd m) (sm_hname m) []
    (match k with KProcess => sm_process m | _ => process0 end) (match k with KServer => sm_service m | _ => service0 end)
    (match k with KClient => sm_client m | _ => client0 end) (match k with KPublisher | KSubscriber => sm_topic m | _ => topic0 end).
Proof. intros E. unfold arrives. rewrite E. destruct k; reflexivity. Qed.
Lemma withdraws_is k m : sm_cmd m = withdraws k -> arrives m =
  Sample (match k with KProcess => [] | _ => sm_entity m end) (sm_pid m) (sm_host m) (sm_cmd m) (sm_hname m) []
    (match k with KProcess => sm_process m | _ => process0 end) (match k with KServer => sm_service m | _ => service0 end)
    (match k with KClient => sm_client m | _ => client0 end) (match k with KPublisher | KSubscriber => sm_topic m | _ => topic0 end).
Proof. intros E. unfold arrives. rewrite E. destruct k; reflexivity. Qed.
Lemma arrives_cmd m : sm_cmd (arrives m) = sm_cmd m.
Proof. unfold arrives. repeat match goal with |- context[if ?b then _ else _] => destruct b end; reflexivity. Qed.
Lemma arrives_of_kind k m : of_kind k m -> label k (arrives m) = label k m /\ called k (arrives m) = called k m /\
  sm_pid (arrives m) = sm_pid m /\ group_in k (arrives m) = group_in k m.
Proof. intros [E|E]; [rewrite (announces_is _ _ E)|rewrite (withdraws_is _ _ E)]; destruct k; repeat split. Qed.
Lemma arrives_listens c k m : of_kind k m -> (listens c k (arrives m) <-> listens c k m).
Proof. intros O. unfold listens. destruct (arrives_of_kind k m O) as (_ & _ & -> & ->). tauto. Qed.
Definition row_kind (e : yentry) : kind :=
  match e with EProcess _ => KProcess | EPublisher _ => KPublisher | ESubscriber _ => KSubscriber | EServer _ => KServer | EClient _ => KClient end.
Lemma arrives_shows n m e : sm_cmd m = announces (row_kind e) -> (shows n (arrives m) e <-> shows n m e).
Proof. intros E. rewrite (announces_is _ _ E). destruct e; reflexivity. Qed.
Lemma rows_kind k l e : In e (rows k l) -> row_kind e = k.
Proof. destruct k; cbn; rewrite in_map_iff; intros (x & <- & _); reflexivity. Qed.
Lemma shows_label n m e : shows n m e -> row_label e = label (row_kind e) m.
Proof.
  destruct e as [e|e|e|e|e]; cbn [shows row_label row_kind label called id_of].
  - intros (E & _ & _ & P & _). rewrite E, P. reflexivity.
  - intros (E & _ & _ & _ & _ & _ & P & _). rewrite E, P. reflexivity.
  - intros (E & _ & _ & _ & _ & _ & P & _). rewrite E, P. reflexivity.
  - intros (E & _ & _ & _ & P & _). rewrite E, P. reflexivity.
  - intros (E & _ & _ & _ & P & _). rewrite E, P. reflexivity.
Qed.
Lemma accept_listens c k m : of_kind k m -> (ap_accept (y_applier c) m = true <-> listens c k m).
Proof.
  intros O. unfold ap_accept, listens.
  assert (G : (if is_nil (ap_group_name m) then sm_host m else ap_group_name m) = group_in k m).
  { unfold ap_group_name, group_in. destruct O as [-> | ->]; destruct k; cbn; try reflexivity; destruct (tp_hgname (sm_topic m)); reflexivity. }
  unfold ap_member, ap_same_process. rewrite G. cbn [ap_group ap_pid ap_loopback ap_network y_applier ap_new]. generalize (group_in k m). intros g.
  destruct (is_nil g || is_nil (yc_group c))%bool eqn:X.
  - assert (~ (g = yc_group c /\ g <> [])) as F.
    { intros [-> N]. destruct (yc_group c); [congruence|discriminate]. }
    split; [intros H; right; auto|]. intros [[H1 [H2 _]]|[_ H]]; [exfalso; auto|exact H].
  - assert (g <> []) as N by (destruct g; [discriminate|discriminate]). destruct (eqb g (yc_group c)) eqn:E.
    + apply eqb_true in E. cbn [negb]. rewrite orb_true_iff, negb_true_iff, Z.eqb_neq. split; [intros H; left; auto|].
      intros [(_ & _ & H)|[H _]]; [exact H|exfalso; auto].
    + apply eqb_false in E. cbn [negb]. split; [intros H; right; split; [intros [H1 _]; contradiction|exact H]|].
      intros [[H _]|[_ H]]; [contradiction|exact H].
Qed.

Section Eye.
Variable compile : text -> option (text -> bool).
Notation step := (yn_step compile).
Notation run := (yn_run compile).
Notation reach := (yreach compile).

(** ** Steps *)
Definition awake (s : ynet) : Prop := forall p q, aget p (yn_procs s) = Some q -> yp_rx q = Listening.
(** The sample a datagram brings to the monitoring. *)
Definition brings (c : ycfg) (m0 : sample) : list sample :=
  match de_sample (ser_sample m0) with Ok m => if ap_accept (y_applier c) m then [m] else [] | _ => [] end.
Lemma datagram_is now m0 q : yp_rx q = Listening ->
  y_datagram compile now (datagram NetModel.reg_sample (ser_sample m0)) q =
  match brings (yp_cfg q) m0 with m :: _ => dmap (with_mon q) (mon_apply compile now m (yp_mon q)) | [] => DOk q end.
Proof.
  intros L. unfold y_datagram, rx_step, brings. rewrite L, NetProofs.reg_receive. cbv iota beta.
  assert (U : YProc (yp_cfg q) (yp_self q) (yp_objs q) (yp_applied q) Listening (yp_mon q) = q) by (rewrite <- L; destruct q; reflexivity).
  rewrite U. unfold y_sample. destruct (de_sample (ser_sample m0)) as [m| |] eqn:D; [|reflexivity|exfalso; exact (deserialize_safe d_sample _ _ _ D)].
  unfold ap_apply. destruct (ap_accept _ _); reflexivity.
Qed.
(** What an operation brings to the monitoring of process [p]. *)
Definition news (p : nat) (o : yop) (s : ynet) : list (Z * mop) :=
  match o with
  | YHear p' i t =>
      if Nat.eqb p' p then
        match nth_error (yn_sent s) i, aget p (yn_procs s) with
        | Some m0, Some q => map (fun m => (t, MSample m)) (brings (yp_cfg q) m0)
        | _, _ => []
        end
      else []
  | YLook p' e t => if Nat.eqb p' p then [(t, MLook e)] else []
  | _ => []
  end.
Lemma y_on_other p' p s f s' : p <> p' -> y_on p' s f = DOk s' -> aget p (yn_procs s') = aget p (yn_procs s).
Proof.
  intros N. unfold y_on. destruct (aget p' (yn_procs s)) as [q|]; [|congruence]. destruct (f q) as [[q' out]| |]; cbn; try discriminate.
  intros E. injection E as <-. cbn. rewrite aget_aset, (neq_eqb p p') by exact N. reflexivity.
Qed.
Lemma y_on_same p s f s' q : y_on p s f = DOk s' -> aget p (yn_procs s) = Some q ->
  exists q' out, f q = DOk (q', out) /\ s' = YNet (aset p q' (yn_procs s)) (yn_sent s ++ out).
Proof. intros E A. unfold y_on in E. rewrite A in E. destruct (f q) as [[q' out]| |]; cbn in E; try discriminate. injection E as <-. eauto. Qed.
(** The process an operation is about. *)
Definition at_proc (o : yop) : nat :=
  match o with
  | YStart p _ _ | YState p _ | YMake p _ _ | YTouch p _ _ | YRegister p _ | YEnd p _ | YStop p | YKill p | YCollect p | YFlush p
  | YHear p _ _ | YLook p _ _ => p
  end.
Lemma step_elsewhere o s s' p : step o s = DOk s' -> at_proc o <> p -> aget p (yn_procs s') = aget p (yn_procs s) /\ news p o s = [].
Proof.
  intros E N. split.
  - destruct o as [p' c r|p' r|p' x o|p' x b|p' x|p' x|p'|p'|p'|p'|p' i t|p' e t]; cbn [at_proc yn_step] in *;
      try (eapply y_on_other; [|exact E]; congruence).
    + destruct (aget p' (yn_procs s)); injection E as <-; [reflexivity|]. cbn. rewrite aget_aset, (neq_eqb p p') by congruence. reflexivity.
    + injection E as <-. cbn. rewrite aget_adel. rewrite (neq_eqb p p') by congruence. reflexivity.
    + destruct (nth_error _ _); [|congruence]. eapply y_on_other; [|exact E]. congruence.
  - destruct o; cbn [at_proc news] in *; try reflexivity; apply Nat.eqb_neq in N; rewrite N; reflexivity.
Qed.
Lemma step_here o s s' q : awake s -> step o s = DOk s' -> aget (at_proc o) (yn_procs s) = Some q -> o <> YKill (at_proc o) ->
  exists q', aget (at_proc o) (yn_procs s') = Some q' /\ yp_cfg q' = yp_cfg q /\ yp_rx q' = Listening /\
    mon_run compile (news (at_proc o) o s) (yp_mon q) = DOk (yp_mon q').
Proof.
  intros W E A K. pose proof (W _ _ A) as L.
  destruct o as [p c r|p r|p x o|p x b|p x|p x|p|p|p|p|p i t|p e t]; cbn [at_proc] in *; cbn [yn_step] in E; cbn [news]; rewrite ?Nat.eqb_refl.
  - rewrite A in E. injection E as <-. exists q. auto.
  - destruct (y_on_same _ _ _ _ _ E A) as (q' & out & F & ->). injection F as <- <-. cbn. rewrite aget_aset_same. eexists. split; [reflexivity|]. auto.
  - destruct (y_on_same _ _ _ _ _ E A) as (q' & out & F & ->). cbn [yn_procs]. rewrite aget_aset_same. destruct (aget x _); injection F as <- <-; eexists; (split; [reflexivity|]); auto.
  - destruct (y_on_same _ _ _ _ _ E A) as (q' & out & F & ->). cbn [yn_procs]. rewrite aget_aset_same.
    destruct (aget x _) as [o|]; [destruct (y_same_kind _ _)|]; injection F as <- <-; eexists; (split; [reflexivity|]); auto.
  - destruct (y_on_same _ _ _ _ _ E A) as (q' & out & F & ->). cbn [yn_procs]. rewrite aget_aset_same. destruct (aget x _); injection F as <- <-; eexists; (split; [reflexivity|]); auto.
  - destruct (y_on_same _ _ _ _ _ E A) as (q' & out & F & ->). cbn [yn_procs]. rewrite aget_aset_same. destruct (aget x _); injection F as <- <-; eexists; (split; [reflexivity|]); auto.
  - destruct (y_on_same _ _ _ _ _ E A) as (q' & out & F & ->). injection F as <- <-. cbn. rewrite aget_aset_same. eexists. split; [reflexivity|]. auto.
  - congruence.
  - destruct (y_on_same _ _ _ _ _ E A) as (q' & out & F & ->). injection F as <- <-. cbn [yn_procs]. rewrite aget_aset_same. eexists. split; [reflexivity|]. auto.
  - destruct (y_on_same _ _ _ _ _ E A) as (q' & out & F & ->). injection F as <- <-. cbn [yn_procs]. rewrite aget_aset_same. eexists. split; [reflexivity|]. auto.
  - destruct (nth_error (yn_sent s) i) as [m0|].
    2:{ injection E as <-. exists q. auto. }
    destruct (y_on_same _ _ _ _ _ E A) as (q' & out & F & ->). cbn [yn_procs]. rewrite aget_aset_same, A. rewrite (datagram_is t m0 q L) in F.
    unfold brings in *. destruct (de_sample (ser_sample m0)) as [m| |].
    2,3: injection F as <- <-; eexists; (split; [reflexivity|]); auto.
    destruct (ap_accept _ m); [|injection F as <- <-; eexists; (split; [reflexivity|]); auto].
    cbn [map mon_run mon_step]. destruct (mon_apply compile t m (yp_mon q)) as [mo| |]; cbn in F; try discriminate.
    injection F as <- <-. eexists. split; [reflexivity|]. auto.
  - destruct (y_on_same _ _ _ _ _ E A) as (q' & out & F & ->). injection F as <- <-. cbn [yn_procs]. rewrite aget_aset_same. eexists. split; [reflexivity|]. auto.
Qed.
Definition fresh (c : ycfg) (r : process) : yproc := YProc c r [] [] Listening (mon_create (yc_timeout c) (yc_excl c) (yc_incl c)).
Lemma step_absent o s s' : step o s = DOk s' -> aget (at_proc o) (yn_procs s) = None ->
  (exists c r, o = YStart (at_proc o) c r /\ aget (at_proc o) (yn_procs s') = Some (fresh c r)) \/ aget (at_proc o) (yn_procs s') = None.
Proof.
  intros E A. destruct o as [p c r|p r|p x o|p x b|p x|p x|p|p|p|p|p i t|p e t]; cbn [at_proc] in *; cbn [yn_step] in E; unfold y_on in E; rewrite ?A in E;
    try (injection E as <-; right; exact A).
  - injection E as <-. left. exists c, r. split; [reflexivity|]. cbn. apply aget_aset_same.
  - injection E as <-. right. cbn. rewrite aget_adel, eqb_refl. reflexivity.
  - destruct (nth_error _ _); injection E as <-; right; exact A.
Qed.
Lemma step_awake o s s' : awake s -> step o s = DOk s' -> awake s'.
Proof.
  intros W E p q A. destruct (Nat.eq_dec (at_proc o) p) as [<-|N].
  - destruct (aget (at_proc o) (yn_procs s)) as [q0|] eqn:A0.
    + assert (o = YKill (at_proc o) \/ o <> YKill (at_proc o)) as [K|K] by (destruct o; try (right; discriminate); left; reflexivity).
      * rewrite K in E. cbn in E. injection E as <-. cbn in A. rewrite aget_adel, eqb_refl in A. discriminate.
      * destruct (step_here o s s' q0 W E A0 K) as (q' & A' & _ & L & _). congruence.
    + destruct (step_absent o s s' E A0) as [(c & r & _ & A')|A']; [|congruence]. rewrite A in A'. injection A' as ->. reflexivity.
  - destruct (step_elsewhere o s s' p E N) as [X _]. rewrite X in A. exact (W p q A).
Qed.
Lemma run_app l1 l2 s : run (l1 ++ l2) s = dbind (run l1 s) (run l2).
Proof. revert s. induction l1 as [|o l1 IH]; intros s; cbn; [reflexivity|]. destruct (step o s); cbn; auto. Qed.
Lemma run_awake l : forall s s', awake s -> run l s = DOk s' -> awake s'.
Proof.
  induction l as [|o l IH]; intros s s' W E; cbn in E; [injection E as <-; exact W|].
  destruct (step o s) as [s1| |] eqn:S1; cbn in E; try discriminate. eapply IH; [|exact E]. eapply step_awake; eauto.
Qed.
Lemma awake0 : awake ynet0. Proof. intros p q E. discriminate. Qed.
Lemma reach_awake ops s : reach ops s -> awake s.
Proof. intros R. eapply run_awake; [exact awake0|exact R]. Qed.
Lemma reach_app ops1 ops2 s : reach (ops1 ++ ops2) s <-> exists s1, reach ops1 s1 /\ run ops2 s1 = DOk s.
Proof.
  unfold yreach. rewrite run_app. split.
  - destruct (run ops1 ynet0) as [s1| |]; cbn; try discriminate. eauto.
  - intros (s1 & -> & E). exact E.
Qed.
Lemma step_sent o s s' : step o s = DOk s' -> exists out, yn_sent s' = yn_sent s ++ out.
Proof.
  intros E. assert (D : forall p f, y_on p s f = DOk s' -> exists out, yn_sent s' = yn_sent s ++ out).
  { intros p f F. unfold y_on in F. destruct (aget p _) as [q|]; [|injection F as <-; exists []; rewrite app_nil_r; reflexivity].
    destruct (f q) as [[q' out]| |]; cbn in F; try discriminate. injection F as <-. exists out. reflexivity. }
  destruct o as [p c r|p r|p x o|p x b|p x|p x|p|p|p|p|p i t|p e t]; cbn [yn_step] in E; try (eapply D; exact E).
  - destruct (aget p _); injection E as <-; exists []; rewrite app_nil_r; reflexivity.
  - injection E as <-. exists []. rewrite app_nil_r. reflexivity.
  - destruct (nth_error _ _); [eapply D; exact E|]. injection E as <-. exists []. rewrite app_nil_r. reflexivity.
Qed.
Lemma run_sent l : forall s s', run l s = DOk s' -> exists out, yn_sent s' = yn_sent s ++ out.
Proof.
  induction l as [|o l IH]; intros s s' E; cbn in E; [injection E as <-; exists []; rewrite app_nil_r; reflexivity|].
  destruct (step o s) as [s1| |] eqn:E1; cbn in E; try discriminate. destruct (step_sent _ _ _ E1) as (o1 & X). destruct (IH _ _ E) as (o2 & Y).
  exists (o1 ++ o2). rewrite Y, X, app_assoc. reflexivity.
Qed.
Lemma sent_later l s s' i m : run l s = DOk s' -> nth_error (yn_sent s) i = Some m -> nth_error (yn_sent s') i = Some m.
Proof. intros R N. destruct (run_sent _ _ _ R) as (out & ->). rewrite nth_error_app1; [exact N|]. apply nth_error_Some. congruence. Qed.

(** ** The history of a monitoring *)
Fixpoint story (p : nat) (l : list yop) (s : ynet) : list (Z * mop) :=
  match l with
  | [] => []
  | o :: l' => news p o s ++ match step o s with DOk s' => story p l' s' | _ => [] end
  end.
Lemma story_app p l1 : forall l2 s s1, run l1 s = DOk s1 -> story p (l1 ++ l2) s = story p l1 s ++ story p l2 s1.
Proof.
  induction l1 as [|o l1 IH]; intros l2 s s1 E; cbn in *; [injection E as <-; reflexivity|].
  destruct (step o s) as [s'| |]; cbn in E; try discriminate. rewrite (IH l2 _ _ E), app_assoc. reflexivity.
Qed.
Lemma mon_run_app a : forall b m, mon_run compile (a ++ b) m = dbind (mon_run compile a m) (mon_run compile b).
Proof. induction a as [|[t o] a IH]; intros b m; cbn; [reflexivity|]. destruct (mon_step compile t o m); cbn; auto. Qed.
Lemma live_run p l : forall s s' q, awake s -> aget p (yn_procs s) = Some q -> lives p l -> run l s = DOk s' ->
  exists q', aget p (yn_procs s') = Some q' /\ yp_cfg q' = yp_cfg q /\ mon_run compile (story p l s) (yp_mon q) = DOk (yp_mon q').
Proof.
  induction l as [|o l IH]; intros s s' q W A V E; cbn in E.
  - injection E as <-. exists q. auto.
  - destruct (step o s) as [s1| |] eqn:S1; cbn in E; try discriminate. cbn [story]. rewrite S1.
    assert (V' : lives p l) by (intros X; apply V; right; exact X). pose proof (step_awake _ _ _ W S1) as W1.
    destruct (Nat.eq_dec (at_proc o) p) as [P|N].
    + subst p. assert (o <> YKill (at_proc o)) as K by (intros X; apply V; left; exact X).
      destruct (step_here o s s1 q W S1 A K) as (q1 & A1 & C1 & _ & M1).
      destruct (IH s1 s' q1 W1 A1 V' E) as (q' & A' & C' & M'). exists q'. split; [exact A'|]. split; [congruence|].
      rewrite mon_run_app, M1. exact M'.
    + destruct (step_elsewhere o s s1 p S1 N) as [X ->]. rewrite <- X in A. cbn [app]. exact (IH s1 s' q W1 A V' E).
Qed.
Lemma birth ops : forall s p q, reach ops s -> aget p (yn_procs s) = Some q ->
  exists ops0 r ops1 s0, ops = ops0 ++ YStart p (yp_cfg q) r :: ops1 /\ lives p ops1 /\ reach (ops0 ++ [YStart p (yp_cfg q) r]) s0 /\
    aget p (yn_procs s0) = Some (fresh (yp_cfg q) r) /\ run ops1 s0 = DOk s.
Proof.
  induction ops as [|o ops IH] using rev_ind; intros s p q R A.
  - unfold yreach in R. cbn in R. injection R as <-. discriminate.
  - apply reach_app in R. destruct R as (s1 & R1 & E). cbn in E. destruct (step o s1) as [s1'| |] eqn:S1; cbn in E; try discriminate. injection E as ->.
    assert (D : forall q1, aget p (yn_procs s1) = Some q1 -> yp_cfg q1 = yp_cfg q -> o <> YKill p -> exists ops0 r ops1 s0, ops ++ [o] = ops0 ++ YStart p (yp_cfg q) r :: ops1 /\ lives p ops1 /\ reach (ops0 ++ [YStart p (yp_cfg q) r]) s0 /\
      aget p (yn_procs s0) = Some (fresh (yp_cfg q) r) /\ run ops1 s0 = DOk s).
    { intros q1 A1 C1 K. destruct (IH s1 p q1 R1 A1) as (ops0 & r & ops1 & s0 & -> & V & R0 & A0 & E1). rewrite C1 in *.
      exists ops0, r, (ops1 ++ [o]), s0. split; [rewrite <- app_assoc; reflexivity|]. split; [|split; [exact R0|split; [exact A0|]]].
      - unfold lives. rewrite in_app_iff. cbn. intros [X|[X|[]]]; [exact (V X)|congruence].
      - rewrite run_app, E1. cbn. rewrite S1. reflexivity. }
    destruct (Nat.eq_dec (at_proc o) p) as [P|N].
    + subst p. destruct (aget (at_proc o) (yn_procs s1)) as [q1|] eqn:A1.
      * assert (o = YKill (at_proc o) \/ o <> YKill (at_proc o)) as [K|K] by (destruct o; try (right; discriminate); left; reflexivity).
        { rewrite K in S1. cbn in S1. injection S1 as <-. cbn in A. rewrite aget_adel, eqb_refl in A. discriminate. }
        destruct (step_here o s1 s q1 (reach_awake _ _ R1) S1 A1 K) as (q' & A' & C' & _). rewrite A in A'. injection A' as <-. eapply D; eauto.
      * destruct (step_absent o s1 s S1 A1) as [(c & r & EO & A')|A']; [|congruence]. rewrite A in A'. injection A' as ->. cbn [yp_cfg fresh].
        exists ops, r, [], s. split; [rewrite <- EO; reflexivity|]. split; [intros []|]. split; [|split; [exact A|reflexivity]].
        rewrite <- EO. apply reach_app. exists s1. split; [exact R1|]. cbn. rewrite S1. reflexivity.
    + destruct (step_elsewhere o s1 s p S1 N) as [X _]. rewrite X in A. apply (D q A eq_refl). intros ->. apply N. reflexivity.
Qed.

(** Where the samples of a history come from. *)
Lemma story_in p l : forall s s' t m, run l s = DOk s' -> In (t, MSample m) (story p l s) ->
  exists la i lb sa m0 q, l = la ++ YHear p i t :: lb /\ run la s = DOk sa /\ nth_error (yn_sent sa) i = Some m0 /\ aget p (yn_procs sa) = Some q /\
    de_sample (ser_sample m0) = Ok m /\ ap_accept (y_applier (yp_cfg q)) m = true.
Proof.
  induction l as [|o l IH]; intros s s' t m E I1; [contradiction|]. cbn in E, I1. destruct (step o s) as [s1| |] eqn:S1; cbn in E; try discriminate.
  apply in_app_iff in I1. destruct I1 as [I1|I1].
  - unfold news in I1. destruct o as [| | | | | | | | | |p' i t'|p' e t']; try contradiction.
    + destruct (Nat.eqb_spec p' p) as [->|]; [|contradiction]. destruct (nth_error (yn_sent s) i) as [m0|] eqn:NE; [|contradiction].
      destruct (aget p (yn_procs s)) as [q|] eqn:A; [|contradiction]. apply in_map_iff in I1. destruct I1 as (m1 & X & I1). injection X as -> ->.
      unfold brings in I1. destruct (de_sample (ser_sample m0)) as [m2| |] eqn:D; try contradiction. destruct (ap_accept _ m2) eqn:AC; [|contradiction].
      destruct I1 as [->|[]]. exists [], i, l, s, m0, q. repeat split; auto.
    + destruct (Nat.eqb p' p); [|contradiction]. destruct I1 as [X|[]]. discriminate.
  - destruct (IH _ _ _ _ E I1) as (la & i & lb & sa & m0 & q & -> & R & Q). exists (o :: la), i, lb, sa, m0, q. split; [reflexivity|]. split; [|exact Q].
    cbn. rewrite S1. exact R.
Qed.
Lemma news_shape p o s : news p o s = [] \/ exists x, news p o s = [x] /\ ytimes p [o] = [fst x] /\ ((exists m, snd x = MSample m) \/ exists e, snd x = MLook e).
Proof.
  destruct o; cbn [news]; auto.
  - destruct (Nat.eqb p0 p) eqn:E; auto. destruct (nth_error _ _) as [m0|]; auto. destruct (aget _ _) as [q|]; auto. unfold brings.
    destruct (de_sample _) as [m| |]; auto. destruct (ap_accept _ _); auto. right. eexists. split; [reflexivity|]. cbn. rewrite E. split; [reflexivity|]. eauto.
  - destruct (Nat.eqb p0 p) eqn:E; auto. right. eexists. split; [reflexivity|]. cbn. rewrite E. split; [reflexivity|]. eauto.
Qed.
Lemma story_times p l : forall s, incl (map fst (story p l s)) (ytimes p l).
Proof.
  induction l as [|o l IH]; intros s; [intros x []|]. change (o :: l) with ([o] ++ l). rewrite ytimes_app. cbn [app story]. rewrite map_app. intros x I1.
  apply in_app_iff in I1. apply in_app_iff. destruct I1 as [I1|I1].
  - left. destruct (news_shape p o s) as [E|(y & E & T & _)]; rewrite E in I1; [contradiction|]. rewrite T. exact I1.
  - right. destruct (step o s); [eapply IH; exact I1|contradiction|contradiction].
Qed.
Lemma story_sorted p now l : forall s, StronglySorted Z.le (ytimes p l ++ [now]) -> StronglySorted Z.le (map fst (story p l s) ++ [now]).
Proof.
  induction l as [|o l IH]; intros s S1; [exact S1|]. change (o :: l) with ([o] ++ l) in S1. rewrite ytimes_app, <- app_assoc in S1.
  cbn [story]. rewrite map_app, <- app_assoc. pose proof (sorted_app_r _ _ S1) as S2.
  assert (S3 : StronglySorted Z.le (map fst (match step o s with DOk s' => story p l s' | _ => [] end) ++ [now])).
  { destruct (step o s); [apply IH, S2| |]; cbn; repeat constructor. }
  assert (I3 : forall x, In x (map fst (match step o s with DOk s' => story p l s' | _ => [] end) ++ [now]) -> In x (ytimes p l ++ [now])).
  { intros x I1. apply in_app_iff in I1. apply in_app_iff. destruct I1 as [I1|I1]; [left|right; exact I1]. destruct (step o s); [eapply story_times; exact I1|contradiction|contradiction]. }
  destruct (news_shape p o s) as [E|(y & E & T & _)]; rewrite E; [exact S3|]. cbn [map app]. constructor; [exact S3|]. apply Forall_forall. intros x I1.
  apply (sorted_le (ytimes p [o]) (ytimes p l ++ [now])); [exact S1|rewrite T; left; reflexivity|apply I3, I1].
Qed.
Definition unfiltered (h : list (Z * mop)) : Prop := forall t o, In (t, o) h -> (exists m, o = MSample m) \/ exists e, o = MLook e.
Lemma story_unfiltered p l : forall s, unfiltered (story p l s).
Proof.
  induction l as [|o l IH]; intros s t x I1; [contradiction|]. cbn [story] in I1. apply in_app_iff in I1. destruct I1 as [I1|I1].
  - destruct (news_shape p o s) as [E|(y & E & _ & K)]; rewrite E in I1; [contradiction|]. destruct I1 as [->|[]]. exact K.
  - destruct (step o s); [eapply IH; exact I1|contradiction|contradiction].
Qed.

(** ** What is known, while the filters stay *)
Section Known.
Variable c : ycfg.
Notation good := (good_patterns compile (yc_excl c) (yc_incl c)).
Notation kn k lb := (known compile (yc_excl c) (yc_incl c) k (yc_timeout c) (fun m => label k m = lb)).
Lemma unfiltered_offered set_of cfg h p : (forall m, set_of (MSample m) = None) -> (forall e, set_of (MLook e) = None) -> unfiltered h ->
  (offered set_of cfg h p <-> listed_pattern cfg p).
Proof.
  intros N1 N2 U. split; [|intros L; left; exact L]. intros [L|(t & o & f & I1 & E & _)]; [exact L|].
  destruct (U _ _ I1) as [(m & ->)|(e & ->)]; congruence.
Qed.
Lemma unfiltered_good h : unfiltered h -> good_filters compile c -> good h.
Proof.
  intros U [G1 G2]. assert (X : forall p, offered set_excl_of (yc_excl c) h p \/ offered set_incl_of (yc_incl c) h p <-> listed_pattern (yc_excl c) p \/ listed_pattern (yc_incl c) p).
  { intros p. rewrite !unfiltered_offered by auto. tauto. }
  split; [intros p O; apply G1, X, O|]. intros p q O1 O2. apply G2; apply X; assumption.
Qed.
Lemma unfiltered_accepted k h m : unfiltered h -> (accepted compile (yc_excl c) (yc_incl c) k h m <-> lets_in compile c k m).
Proof.
  intros U. unfold accepted, lets_in, selected, passes. assert (Q : no_state h).
  { intros t b I1. destruct (U _ _ I1) as [(x & X)|(x & X)]; discriminate. }
  assert (F : forall set_of cfg p, in_force set_of cfg h p <-> listed_pattern cfg p).
  { intros so cfg p. rewrite <- (force_start so cfg p). exact (force_quiet so cfg [] h p Q). }
  destruct k; try tauto; apply selects_ext; intros p; apply F.
Qed.
Lemma unfiltered_app a b : unfiltered (a ++ b) -> unfiltered a.
Proof. intros U t o I1. apply (U t o), in_app_iff. auto. Qed.
Lemma known_total h now : upwards (map fst h ++ [now]) -> good h -> forall k lb, exists x, kn k lb h x.
Proof.
  intros U G k lb. destruct (run_inv compile (yc_excl c) (yc_incl c) (yc_timeout c) h now U G) as (m & _ & [_ _ A1 A2 A3 A4 A5]).
  destruct k; [destruct (ta_at _ _ _ _ _ _ _ _ _ A1 lb) as (x & K & _)|destruct (ta_at _ _ _ _ _ _ _ _ _ A2 lb) as (x & K & _)|destruct (ta_at _ _ _ _ _ _ _ _ _ A3 lb) as (x & K & _)
    |destruct (ta_at _ _ _ _ _ _ _ _ _ A4 lb) as (x & K & _)|destruct (ta_at _ _ _ _ _ _ _ _ _ A5 lb) as (x & K & _)]; exists x; exact K.
Qed.
Lemma up_front (a b : list (Z * mop)) now : upwards (map fst (a ++ b) ++ [now]) -> upwards (map fst a ++ [now]).
Proof.
  rewrite !upwards_sorted, map_app. intros S1. induction a as [|x a IH]; cbn; [repeat constructor|].
  cbn in S1. inversion S1 as [|? ? S2 F]; subst. constructor; [apply IH, S2|]. rewrite Forall_forall in *. intros y I1. apply F. rewrite !in_app_iff in *. tauto.
Qed.
(** What is known stays known until it is withdrawn. *)
Lemma stays_known h1 k lb n m t now : kn k lb h1 (Some (n, m, t)) -> (now - yc_timeout c <= t)%Z -> forall h2, unfiltered (h1 ++ h2) ->
  good (h1 ++ h2) -> upwards (map fst (h1 ++ h2) ++ [now]) ->
  (forall t' m', In (t', MSample m') h2 -> sm_cmd m' = withdraws k -> label k m' <> lb) ->
  exists n' m' t', kn k lb (h1 ++ h2) (Some (n', m', t')) /\ (t <= t')%Z /\ ((m' = m /\ t' = t) \/ (In (t', MSample m') h2 /\ sm_cmd m' = announces k /\ label k m' = lb)).
Proof.
  intros K T h2. induction h2 as [|[tl o] h2 IH] using rev_ind; intros U G S1 N.
  - rewrite app_nil_r. exists n, m, t. split; [exact K|]. split; [lia|auto].
  - rewrite app_assoc in *. destruct IH as (n' & m' & t' & K' & T' & Q).
    { apply (unfiltered_app _ _ U). }
    { apply (good_app _ _ _ _ _ G). }
    { apply (up_front _ _ _ S1). }
    { intros u x I1. apply (N u x). apply in_app_iff. auto. }
    assert (Q' : (m' = m /\ t' = t) \/ (In (t', MSample m') (h2 ++ [(tl, o)]) /\ sm_cmd m' = announces k /\ label k m' = lb)).
    { destruct Q as [Q|(I1 & Q)]; [left; exact Q|right; split; [apply in_app_iff; auto|exact Q]]. }
    destruct (known_total _ now S1 G k lb) as (x & KX). pose proof KX as KX0. apply known_snoc in KX. destruct KX as (y & KY & S).
    pose proof (known_fun _ _ _ _ _ _ _ _ _ KY K') as ->. cbn [fst snd] in S.
    assert (BT : (t' <= tl <= now)%Z).
    { destruct (known_in _ _ _ _ _ _ _ _ _ _ K') as (I1 & _). rewrite upwards_sorted, map_app, <- app_assoc in S1. split.
      - apply (sorted_le (map fst (h1 ++ h2)) (map fst [(tl, o)] ++ [now])); [exact S1|apply in_map_iff; exists (t', MSample m'); auto|left; reflexivity].
      - apply sorted_app_r in S1. cbn in S1. inversion S1 as [|? ? _ F]; subst. inversion F; subst. assumption. }
    destruct (U tl o) as [(x0 & ->)|(x0 & ->)]; [apply in_app_iff; right; left; reflexivity| |].
    + destruct S as [(C & M & A & ->)|[(C & M & ->)|(_ & ->)]].
      * exists (n' + 1)%Z, x0, tl. split; [exact KX0|]. split; [lia|]. right. split; [apply in_app_iff; right; left; reflexivity|auto].
      * exfalso. apply (N tl x0); [apply in_app_iff; right; left; reflexivity|exact C|exact M].
      * exists n', m', t'. auto.
    + destruct S as [((n0 & s0 & t0 & E & _ & L) & _)|(_ & ->)]; [injection E as <- <- <-; lia|]. exists n', m', t'. auto.
Qed.
(** What is not known becomes known by a registration only. *)
Lemma stays_unknown h1 k lb : kn k lb h1 None -> forall h2 n m t, kn k lb (h1 ++ h2) (Some (n, m, t)) ->
  In (t, MSample m) h2 /\ sm_cmd m = announces k /\ label k m = lb.
Proof.
  intros K h2. induction h2 as [|[tl o] h2 IH] using rev_ind; intros n m t K2.
  - rewrite app_nil_r in K2. pose proof (known_fun _ _ _ _ _ _ _ _ _ K K2). discriminate.
  - rewrite app_assoc in K2. apply known_snoc in K2. destruct K2 as (y & KY & S). cbn [fst snd] in S.
    assert (D : Some (n, m, t) = y -> In (t, MSample m) (h2 ++ [(tl, o)]) /\ sm_cmd m = announces k /\ label k m = lb).
    { intros <-. destruct (IH _ _ _ KY) as (I1 & Q). split; [apply in_app_iff; auto|exact Q]. }
    destruct o as [x|e|f|f|b]; auto.
    + destruct S as [(C & M & _ & E)|[(_ & _ & E)|(_ & E)]]; [|discriminate|auto]. injection E as -> -> ->. split; [apply in_app_iff; right; left; reflexivity|auto].
    + destruct S as [(_ & E)|(_ & E)]; [discriminate|auto].
Qed.
(** Everything listed was let in. *)
Lemma known_let k lb h : unfiltered h -> forall n m t, kn k lb h (Some (n, m, t)) -> lets_in compile c k m.
Proof.
  induction h as [|[tl o] h IH] using rev_ind; intros U n m t K.
  - destruct (known_in _ _ _ _ _ _ _ _ _ _ K) as ([] & _).
  - apply known_snoc in K. destruct K as (y & KY & S). cbn [fst snd] in S. pose proof (unfiltered_app _ _ U) as U0.
    assert (D : Some (n, m, t) = y -> lets_in compile c k m) by (intros <-; eauto).
    destruct o as [x|e|f|f|b]; auto.
    + destruct S as [(C & M & A & E)|[(_ & _ & E)|(_ & E)]]; [|discriminate|auto]. injection E as -> -> ->. apply (unfiltered_accepted k h x U0), A.
    + destruct S as [(_ & E)|(_ & E)]; [discriminate|auto].
Qed.
(** One listing, all kinds alike. *)
Lemma rows_lists h now ents m : unfiltered h -> good_filters compile c -> upwards (map fst h ++ [now]) ->
  mon_run compile h (mon_create (yc_timeout c) (yc_excl c) (yc_incl c)) = DOk m ->
  forall k, (asked k ents -> lists (fun lb => kn k lb h) shows (now - yc_timeout c) (rows k (snd (mon_get now ents m)))) /\
            (~ asked k ents -> rows k (snd (mon_get now ents m)) = []).
Proof.
  intros U G S1 R. destruct (listings compile (yc_excl c) (yc_incl c) (yc_timeout c) h now ents S1 (unfiltered_good h U G)) as (m' & R' & L).
  rewrite R in R'. injection R' as <-. cbv zeta in L. revert L. generalize (snd (mon_get now ents m)). intros l L.
  assert (X : forall V (f : V -> yentry) (sh : Z -> sample -> V -> Prop) k (lv : list V), (forall n s v, sh n s v -> shows n s (f v)) ->
    lists (fun lb => kn k lb h) sh (now - yc_timeout c) lv -> lists (fun lb => kn k lb h) shows (now - yc_timeout c) (map f lv)).
  { intros V f sh k lv SH (xs & ND & F & A). exists xs. split; [exact ND|]. split; [|exact A]. clear -F SH. induction F as [|x e xs l (n & s & t & K & T & E) F IH]; cbn; constructor; [|exact IH].
    exists n, s, t. auto. }
  destruct L as (L1 & L2 & L3 & L4 & L5 & N1 & N2 & N3 & N4 & N5). intros k. destruct k; cbn [rows].
  - split; intros As; [apply (X _ EProcess shows_process KProcess); [auto|exact (L1 As)]|rewrite (N1 As); reflexivity].
  - split; intros As; [apply (X _ EPublisher (shows_topic (str "publisher")) KPublisher); [auto|exact (L2 As)]|rewrite (N2 As); reflexivity].
  - split; intros As; [apply (X _ ESubscriber (shows_topic (str "subscriber")) KSubscriber); [auto|exact (L3 As)]|rewrite (N3 As); reflexivity].
  - split; intros As; [apply (X _ EServer shows_server KServer); [auto|exact (L4 As)]|rewrite (N4 As); reflexivity].
  - split; intros As; [apply (X _ EClient shows_client KClient); [auto|exact (L5 As)]|rewrite (N5 As); reflexivity].
Qed.
End Known.

(** ** What is said *)
Lemma wf_p0 : wf_process process0. Proof. unfold wf_process, i32, u32; cbn; lia. Qed.
Lemma wf_s0 : wf_service service0. Proof. unfold wf_service, i32, u32; cbn. repeat split; try lia. constructor. Qed.
Lemma wf_c0 : wf_client client0. Proof. unfold wf_client, i32, u32; cbn. repeat split; try lia. constructor. Qed.
Lemma wf_t0 : wf_topic topic0. Proof. unfold wf_topic, i32, i64; cbn. repeat split; try lia; constructor. Qed.
Lemma wf_cmd_kind c : (forall z, c <> bct_other z) -> wf_cmd c.
Proof. intros N z E. exfalso. exact (N z E). Qed.
Lemma i32_0 : i32 0. Proof. unfold i32. lia. Qed.
Lemma u32_0 : u32 0. Proof. unfold u32. lia. Qed.
Lemma port_u32 z : (0 <= z < 2 ^ 16)%Z -> u32 z. Proof. unfold u32. lia. Qed.
Ltac kindly := apply wf_cmd_kind; intros z; cbn; discriminate.
Lemma wf_y_proc_reg c r : i32 (yc_pid c) -> wf_process r -> wf_sample (y_proc_reg c r).
Proof.
  intros P (_ & W2 & W3 & W4 & W5). refine (conj _ (conj P (conj _ (conj wf_s0 (conj wf_c0 wf_t0))))); [kindly|].
  exact (conj i32_0 (conj W2 (conj W3 (conj W4 W5)))).
Qed.
Lemma wf_y_proc_unreg c r : i32 (yc_pid c) -> wf_sample (y_proc_unreg c r).
Proof. intros P. refine (conj _ (conj P (conj _ (conj wf_s0 (conj wf_c0 wf_t0))))); [kindly|]. exact (conj i32_0 (conj u32_0 (conj u32_0 (conj u32_0 i32_0)))). Qed.
Lemma wf_y_reg c r o : i32 (yc_pid c) -> wf_body (yo_body o) -> wf_sample (y_reg c r o).
Proof.
  intros P W. unfold y_reg. destruct (yo_body o) as [t|t|v|v]; cbn in W.
  - destruct W as (_ & W2 & W3 & W4 & W5 & _ & W7 & W8 & W9 & W10).
    refine (conj _ (conj P (conj wf_p0 (conj wf_s0 (conj wf_c0 _))))); [kindly|].
    exact (conj i32_0 (conj W2 (conj W3 (conj W4 (conj W5 (conj i32_0 (conj W7 (conj W8 (conj W9 W10))))))))).
  - destruct W as (_ & W2 & W3 & _ & _ & W6 & _ & W8 & W9 & W10).
    refine (conj _ (conj P (conj wf_p0 (conj wf_s0 (conj wf_c0 _))))); [kindly|].
    refine (conj i32_0 (conj W2 (conj W3 (conj i32_0 (conj i32_0 (conj W6 (conj _ (conj W8 (conj W9 W10))))))))). unfold i64. cbn. lia.
  - destruct W as (W1 & W2 & W3 & W4). unfold SdsModel.sx_reg.
    assert (B : wf_sample (Sample [] 0 [] bct_reg_service [] [] process0 service0 client0 topic0)).
    { refine (conj _ (conj i32_0 (conj wf_p0 (conj wf_s0 (conj wf_c0 wf_t0))))). kindly. }
    destruct (_ && _)%bool; [exact B|]. destruct (_ && _)%bool; [exact B|].
    refine (conj _ (conj P (conj wf_p0 (conj _ (conj wf_c0 wf_t0))))); [kindly|].
    refine (conj i32_0 (conj W1 (conj W2 (conj _ _)))); cbn; unfold SdsModel.sx_port0, SdsModel.sx_port1; cbn;
      [destruct (yc_v0 c)|destruct (yc_v1 c)]; first [apply port_u32; assumption|exact u32_0].
  - destruct W as (W1 & W2). refine (conj _ (conj P (conj wf_p0 (conj wf_s0 (conj _ wf_t0))))); [kindly|]. exact (conj i32_0 (conj W1 W2)).
Qed.
Lemma wf_bare_topic g a b n : wf_topic (Topic 0 g a b n [] dt0 [] 0 0 0 0 0 0 0 []).
Proof. exact wf_t0. Qed.
Lemma wf_y_unreg c r o : i32 (yc_pid c) -> wf_body (yo_body o) -> wf_sample (y_unreg c r o).
Proof.
  intros P W. unfold y_unreg. destruct (yo_body o) as [t|t|v|v]; cbn in W.
  - refine (conj _ (conj P (conj wf_p0 (conj wf_s0 (conj wf_c0 (wf_bare_topic _ _ _ _)))))). kindly.
  - refine (conj _ (conj P (conj wf_p0 (conj wf_s0 (conj wf_c0 (wf_bare_topic _ _ _ _)))))). kindly.
  - destruct W as (W1 & W2 & _). refine (conj _ (conj P (conj wf_p0 (conj _ (conj wf_c0 wf_t0))))); [kindly|].
    exact (conj i32_0 (conj (Forall_nil _) (conj W2 (conj u32_0 u32_0)))).
  - destruct W as (W1 & W2). refine (conj _ (conj P (conj wf_p0 (conj wf_s0 (conj _ wf_t0))))); [kindly|]. exact (conj i32_0 (conj (Forall_nil _) W2)).
Qed.
Lemma y_reg_cmd c r o : sm_cmd (y_reg c r o) = announces (kind_of (yo_body o)).
Proof. unfold y_reg. destruct (yo_body o); cbn; try reflexivity. unfold SdsModel.sx_reg. destruct (_ && _)%bool; [reflexivity|]. destruct (_ && _)%bool; reflexivity. Qed.
Lemma y_unreg_cmd c r o : sm_cmd (y_unreg c r o) = withdraws (kind_of (yo_body o)).
Proof. unfold y_unreg. destruct (yo_body o); reflexivity. Qed.
Lemma y_reg_tells c r o : (forall v, yo_body o = YSrv v -> all_ears c v) -> describes c r o (y_reg c r o).
Proof.
  intros H. unfold describes, y_reg, from. destruct (yo_body o) as [t|t|v|v]; try (cbn; repeat split; fail).
  destruct (H v eq_refl) as [H0 H1]. unfold SdsModel.sx_reg. cbn [SdsModel.pc_v0 SdsModel.pc_v1 y_dcfg]. unfold SdsModel.sx_port0, SdsModel.sx_port1. cbn.
  destruct (yc_v0 c); cbn [andb]; [rewrite (proj2 (Z.eqb_neq _ _) (H0 eq_refl))|]; (destruct (yc_v1 c); cbn [andb]; [rewrite (proj2 (Z.eqb_neq _ _) (H1 eq_refl))|]); cbn; repeat split.
Qed.
Lemma y_reg_blank c r o v : yo_body o = YSrv v -> ~ all_ears c v -> blank (y_reg c r o).
Proof.
  intros E N. unfold y_reg. rewrite E. unfold SdsModel.sx_reg. cbn [SdsModel.pc_v0 SdsModel.pc_v1 y_dcfg]. unfold SdsModel.sx_port0, SdsModel.sx_port1. cbn.
  destruct (yc_v0 c && _)%bool eqn:E0; [repeat split|]. destruct (yc_v1 c && _)%bool eqn:E1; [repeat split|]. exfalso. apply N. split; intros V.
  - rewrite V in E0. cbn [andb] in E0. apply Z.eqb_neq in E0. exact E0.
  - rewrite V in E1. cbn [andb] in E1. apply Z.eqb_neq in E1. exact E1.
Qed.
Lemma ears_dec c v : all_ears c v \/ ~ all_ears c v.
Proof.
  unfold all_ears. destruct (yc_v0 c), (yc_v1 c); destruct (Z.eq_dec (sv_port0 v) 0), (Z.eq_dec (sv_port1 v) 0);
    try (left; split; congruence); right; intros [A B]; first [apply (A eq_refl); assumption|apply (B eq_refl); assumption].
Qed.
Lemma y_reg_was c r o : describes c r o (y_reg c r o) \/ (blank (y_reg c r o) /\ exists v, yo_body o = YSrv v /\ ~ all_ears c v).
Proof.
  destruct (yo_body o) as [t|t|v|v] eqn:E; try (left; apply y_reg_tells; intros v' E'; congruence).
  destruct (ears_dec c v) as [A|A]; [left; apply y_reg_tells; intros v' E'; congruence|]. right. split; [eapply y_reg_blank; eauto|eauto].
Qed.
Notation was := (was_so compile).
Lemma was_app ops l k m : was ops k m -> was (ops ++ l) k m.
Proof. intros (o1 & o2 & s1 & p & -> & Q). exists o1, (o2 ++ l), s1, p. rewrite app_assoc. auto. Qed.
Definition said (ops : list yop) (m : sample) : Prop :=
  wf_sample m /\ ((exists k, sm_cmd m = announces k /\ was ops k m) \/ exists k, sm_cmd m = withdraws k).
Lemma said_app ops l m : said ops m -> said (ops ++ l) m.
Proof. intros [W [(k & C & Q)|Q]]; split; auto. left. exists k. split; [exact C|]. apply was_app, Q. Qed.
Record pgood (ops : list yop) (q : yproc) : Prop := {
  pg_keys : NoDup (keys (yp_objs q));
  pg_pid : i32 (yc_pid (yp_cfg q));
  pg_self : wf_process (yp_self q);
  pg_objs : forall x o, aget x (yp_objs q) = Some o -> wf_body (yo_body o);
  pg_said : Forall (said ops) (yp_applied q) }.
Lemma pgood_app ops l q : pgood ops q -> pgood (ops ++ l) q.
Proof. intros [A B C D E]. constructor; auto. eapply Forall_impl; [|exact E]. intros m. apply said_app. Qed.
Definition ngood (ops : list yop) (s : ynet) : Prop := (forall p q, aget p (yn_procs s) = Some q -> pgood ops q) /\ Forall (said ops) (yn_sent s).
Lemma said_reg ops s p q x o : reach ops s -> aget p (yn_procs s) = Some q -> pgood ops q -> aget x (yp_objs q) = Some o -> said ops (y_reg (yp_cfg q) (yp_self q) o).
Proof.
  intros R A G X. split; [apply wf_y_reg; [apply G|apply (pg_objs _ _ G x o X)]|]. left. exists (kind_of (yo_body o)). split; [apply y_reg_cmd|].
  exists ops, [], s, p. split; [rewrite app_nil_r; reflexivity|]. split; [exact R|]. right. exists x, (yp_cfg q), (yp_self q), o. split; [reflexivity|]. split; [exists q; auto|].
  apply y_reg_was.
Qed.
Lemma said_self ops s p q : reach ops s -> aget p (yn_procs s) = Some q -> pgood ops q -> said ops (y_proc_reg (yp_cfg q) (yp_self q)).
Proof.
  intros R A G. split; [apply wf_y_proc_reg; apply G|]. left. exists KProcess. split; [reflexivity|].
  exists ops, [], s, p. split; [rewrite app_nil_r; reflexivity|]. split; [exact R|]. left. exists (yp_cfg q), (yp_self q). split; [reflexivity|]. split; [exists q; auto|].
  unfold describes_process, from. cbn. repeat split.
Qed.
Lemma said_cycle ops s p q : reach ops s -> aget p (yn_procs s) = Some q -> pgood ops q -> Forall (said ops) (y_cycle q).
Proof.
  intros R A G. unfold y_cycle. constructor; [eapply said_self; eauto|]. apply Forall_forall. intros m I1. apply in_flat_map in I1. destruct I1 as (n & _ & I1).
  apply in_map_iff in I1. destruct I1 as ([x o] & <- & I1). apply filter_In in I1. destruct I1 as [I1 _]. cbn. eapply said_reg; eauto. apply in_aget; [apply G|exact I1].
Qed.
Lemma good_step ops o s s' : reach ops s -> ngood ops s -> ysane_op o -> step o s = DOk s' -> ngood (ops ++ [o]) s'.
Proof.
  intros R [G S] SO E. pose proof (reach_awake _ _ R) as W.
  assert (G' : forall p q, aget p (yn_procs s) = Some q -> pgood (ops ++ [o]) q) by (intros p q A; apply pgood_app, (G p q A)).
  assert (S' : Forall (said (ops ++ [o])) (yn_sent s)) by (eapply Forall_impl; [|exact S]; intros m; apply said_app).
  assert (D : forall p f, y_on p s f = DOk s' -> (forall q q' out, aget p (yn_procs s) = Some q -> f q = DOk (q', out) -> pgood (ops ++ [o]) q' /\ Forall (said (ops ++ [o])) out) -> ngood (ops ++ [o]) s').
  { intros p f F H. destruct (aget p (yn_procs s)) as [q|] eqn:A.
    - destruct (y_on_same _ _ _ _ _ F A) as (q' & out & FE & ->). destruct (H q q' out eq_refl FE) as [H1 H2]. split.
      + intros p1 q1. cbn. rewrite aget_aset. destruct (eqb p1 p); [|apply G']. intros X. injection X as <-. exact H1.
      + cbn. apply Forall_app. auto.
    - unfold y_on in F. rewrite A in F. injection F as <-. split; assumption. }
  destruct o as [p c r|p r|p x o|p x b|p x|p x|p|p|p|p|p i t|p e t]; cbn [yn_step] in E; cbn [ysane_op] in SO; try (apply (D _ _ E); intros q q' out A F).
  - destruct (aget p (yn_procs s)) eqn:A; injection E as <-; [split; assumption|]. split; [|exact S']. intros p1 q1. cbn. rewrite aget_aset. destruct (eqb p1 p); [|apply G'].
    intros X. injection X as <-. destruct SO. constructor; cbn; auto; [constructor|discriminate].
  - injection F as <- <-. split; [|constructor]. destruct (G' _ _ A). constructor; auto.
  - destruct (G' _ _ A) as [K1 K2 K3 K4 K5]. destruct (aget x (yp_objs q)) eqn:X; injection F as <- <-; (split; [|constructor]); [constructor; auto|]. constructor; cbn; auto.
    + apply nodup_aset, K1.
    + intros y w. rewrite aget_aset. destruct (eqb y x); [intros Y; injection Y as <-; exact SO|apply K4].
  - destruct (G' _ _ A) as [K1 K2 K3 K4 K5]. destruct (aget x (yp_objs q)) as [o|] eqn:X; [destruct (y_same_kind _ _)|]; injection F as <- <-; (split; [|constructor]); try (constructor; auto; fail). constructor; cbn; auto.
    + apply nodup_aset, K1.
    + intros y w. rewrite aget_aset. destruct (eqb y x); [intros Y; injection Y as <-; exact SO|apply K4].
  - pose proof (G' _ _ A) as K0. destruct K0 as [K1 K2 K3 K4 K5]. destruct (aget x (yp_objs q)) as [o|] eqn:X; injection F as <- <-; (split; [|constructor]); [|constructor; auto]. constructor; cbn; auto.
    apply Forall_app. split; [exact K5|]. constructor; [|constructor]. apply said_app. eapply said_reg; eauto.
  - destruct (G' _ _ A) as [K1 K2 K3 K4 K5]. destruct (aget x (yp_objs q)) as [o|] eqn:X; injection F as <- <-; (split; [|constructor]); [|constructor; auto]. constructor; cbn; auto.
    + apply nodup_adel, K1.
    + intros y w. rewrite aget_adel. destruct (eqb y x); [discriminate|apply K4].
    + apply Forall_app. split; [exact K5|]. constructor; [|constructor]. split; [apply wf_y_unreg; [exact K2|eapply K4; exact X]|]. right. eexists. apply y_unreg_cmd.
  - destruct (G' _ _ A) as [K1 K2 K3 K4 K5]. injection F as <- <-. split; [|constructor]. constructor; cbn; auto. apply Forall_app. split; [exact K5|].
    constructor; [|constructor]. split; [apply wf_y_proc_unreg, K2|]. right. exists KProcess. reflexivity.
  - injection E as <-. split; [|exact S']. intros p1 q1. cbn. rewrite aget_adel. destruct (eqb p1 p); [discriminate|apply G'].
  - injection F as <- <-. split; [apply (G' _ _ A)|]. eapply Forall_impl; [intros m; apply said_app|]. eapply said_cycle; eauto.
  - destruct (G' _ _ A) as [K1 K2 K3 K4 K5]. injection F as <- <-. split; [constructor; cbn; auto|exact K5].
  - destruct (nth_error (yn_sent s) i) as [m0|]; [|injection E as <-; split; assumption]. apply (D _ _ E). intros q q' out A F. rewrite (datagram_is t m0 q (W _ _ A)) in F.
    destruct (G' _ _ A) as [K1 K2 K3 K4 K5]. destruct (brings (yp_cfg q) m0) as [|m l]; [injection F as <- <-; split; [constructor; auto|constructor]|].
    destruct (mon_apply compile t m (yp_mon q)) as [mo| |]; cbn in F; try discriminate. injection F as <- <-. split; [constructor; auto|constructor].
  - destruct (G' _ _ A) as [K1 K2 K3 K4 K5]. injection F as <- <-. split; [constructor; auto|constructor].
Qed.
Lemma reach_good ops : forall s, ysane ops -> reach ops s -> ngood ops s.
Proof.
  induction ops as [|o ops IH] using rev_ind; intros s SA R.
  - unfold yreach in R. cbn in R. injection R as <-. split; [intros p q E; discriminate|constructor].
  - apply Forall_app in SA. destruct SA as [SA SO]. inversion SO as [|? ? SO' _]; subst. apply reach_app in R. destruct R as (s1 & R1 & E). cbn in E.
    destruct (step o s1) as [s1'| |] eqn:S1; cbn in E; try discriminate. injection E as ->. eapply good_step; eauto.
Qed.

(** ** Lives *)
Lemma lives_app p a b : lives p (a ++ b) <-> lives p a /\ lives p b.
Proof. unfold lives. rewrite in_app_iff. tauto. Qed.
Lemma story_from p l s0 s1 q0 t m : awake s0 -> aget p (yn_procs s0) = Some q0 -> lives p l -> run l s0 = DOk s1 -> In (t, MSample m) (story p l s0) ->
  exists la i lb sa m0, l = la ++ YHear p i t :: lb /\ run la s0 = DOk sa /\ nth_error (yn_sent sa) i = Some m0 /\
    de_sample (ser_sample m0) = Ok m /\ ap_accept (y_applier (yp_cfg q0)) m = true.
Proof.
  intros W A V E I1. destruct (story_in p l s0 s1 t m E I1) as (la & i & lb & sa & m0 & q & -> & R & N & A' & D & AC).
  apply lives_app in V. destruct V as [V _]. destruct (live_run p la s0 sa q0 W A V R) as (q' & A2 & C & _). rewrite A' in A2. injection A2 as <-.
  rewrite C in AC. exists la, i, lb, sa, m0. auto.
Qed.
Lemma cut ops1 ops2 s1 s p q1 now : well_configured compile (ops1 ++ ops2) -> ysteady p (ops1 ++ ops2) now ->
  reach ops1 s1 -> reach (ops1 ++ ops2) s -> aget p (yn_procs s1) = Some q1 -> lives p ops2 ->
  run ops2 s1 = DOk s /\ good_filters compile (yp_cfg q1) /\ exists h1 q, aget p (yn_procs s) = Some q /\ yp_cfg q = yp_cfg q1 /\
    mon_run compile (h1 ++ story p ops2 s1) (mon_create (yc_timeout (yp_cfg q1)) (yc_excl (yp_cfg q1)) (yc_incl (yp_cfg q1))) = DOk (yp_mon q) /\
    mon_run compile h1 (mon_create (yc_timeout (yp_cfg q1)) (yc_excl (yp_cfg q1)) (yc_incl (yp_cfg q1))) = DOk (yp_mon q1) /\
    unfiltered (h1 ++ story p ops2 s1) /\ upwards (map fst (h1 ++ story p ops2 s1) ++ [now]) /\
    (forall t m, In (t, MSample m) h1 -> exists oa i ob sa m0, ops1 = oa ++ YHear p i t :: ob /\ reach oa sa /\ nth_error (yn_sent sa) i = Some m0 /\
       de_sample (ser_sample m0) = Ok m /\ ap_accept (y_applier (yp_cfg q1)) m = true).
Proof.
  intros WC ST R1 R A V. apply reach_app in R. destruct R as (s1' & R1' & E). unfold yreach in R1, R1'. rewrite R1 in R1'. injection R1' as <-. change (reach ops1 s1) in R1.
  split; [exact E|]. destruct (birth ops1 s1 p q1 R1 A) as (ops0 & r & opsl & s0 & -> & V0 & R0 & A0 & E0).
  split; [apply (WC p (yp_cfg q1) r); rewrite !in_app_iff; left; right; left; reflexivity|].
  pose proof (reach_awake _ _ R0) as W0. pose proof (reach_awake _ _ R1) as W1.
  destruct (live_run p opsl s0 s1 _ W0 A0 V0 E0) as (q1' & A1 & _ & M1). rewrite A in A1. injection A1 as <-. cbn [yp_mon yp_cfg fresh] in M1.
  destruct (live_run p ops2 s1 s q1 W1 A V E) as (q & A2 & C2 & M2).
  exists (story p opsl s0), q. split; [exact A2|]. split; [exact C2|]. rewrite mon_run_app, M1. cbn [dbind]. split; [exact M2|]. split; [reflexivity|].
  rewrite <- (story_app p opsl ops2 s0 s1 E0). split; [apply story_unfiltered|]. split.
  - apply upwards_sorted, story_sorted. apply upwards_sorted in ST. unfold ysteady in ST. rewrite <- app_assoc in ST. rewrite !ytimes_app in ST. rewrite <- !app_assoc in ST.
    apply sorted_app_r in ST. rewrite ytimes_app, <- app_assoc. exact ST.
  - intros t m I1. destruct (story_from p opsl s0 s1 _ t m W0 A0 V0 E0 I1) as (la & i & lb & sa & m0 & -> & RA & N & D & AC). cbn [yp_cfg fresh] in AC.
    exists ((ops0 ++ [YStart p (yp_cfg q1) r]) ++ la), i, lb, sa, m0. split; [rewrite <- !app_assoc; reflexivity|]. split; [|auto].
    apply reach_app. eauto.
Qed.
Lemma heard_from oa ob s sa i m0 m : ysane (oa ++ ob) -> reach (oa ++ ob) s -> yfits s -> reach oa sa -> nth_error (yn_sent sa) i = Some m0 ->
  de_sample (ser_sample m0) = Ok m -> said oa m0 /\ m = arrives m0.
Proof.
  intros SA R F RA N D. apply Forall_app in SA. destruct SA as [SA _]. destruct (reach_good oa sa SA RA) as [_ G]. pose proof (nth_error_In _ _ N) as I0.
  rewrite Forall_forall in G. specialize (G m0 I0). split; [exact G|]. destruct G as [W _].
  apply reach_app in R. destruct R as (sa' & RA' & E). unfold yreach in RA, RA'. rewrite RA in RA'. injection RA' as <-.
  assert (I1 : In m0 (yn_sent s)) by (eapply nth_error_In, sent_later; eauto). rewrite (sample_round m0 W (F m0 I1)) in D. congruence.
Qed.
Lemma said_kind ops m k : said ops m -> sm_cmd m = announces k -> was ops k m.
Proof.
  intros [_ [(k' & C & Q)|(k' & C)]] E.
  - rewrite E in C. assert (k = k') as -> by (destruct k, k'; try discriminate; reflexivity). exact Q.
  - rewrite E in C. destruct k, k'; discriminate.
Qed.
Lemma view_row ops s p q now ents k e : well_configured compile ops -> ysteady p ops now -> reach ops s -> aget p (yn_procs s) = Some q ->
  In e (rows k (snd (mon_get now ents (yp_mon q)))) -> asked k ents.
Proof.
  intros WC ST R A I1. rewrite <- (app_nil_r ops) in WC, ST. destruct (cut ops [] s s p q now WC ST R) as (_ & G & h & q' & A' & _ & M & _ & U & UP & _); auto.
  { rewrite app_nil_r. exact R. } { intros []. }
  rewrite A in A'. injection A' as <-. cbn [story] in *. destruct (rows_lists (yp_cfg q) _ now ents (yp_mon q) U G UP M k) as [_ N].
  unfold asked in *. destruct (Z.testbit ents (Z.of_nat (bit_of k))); [reflexivity|]. rewrite N in I1 by discriminate. contradiction.
Qed.
Lemma lists_row {V} c k h (sh : Z -> sample -> V -> Prop) old (l : list V) e :
  lists (fun lb => known compile (yc_excl c) (yc_incl c) k (yc_timeout c) (fun m => label k m = lb) h) sh old l -> In e l ->
  exists lb n m t, known compile (yc_excl c) (yc_incl c) k (yc_timeout c) (fun m => label k m = lb) h (Some (n, m, t)) /\ (old <= t)%Z /\ sh n m e.
Proof.
  intros (xs & _ & F & _). induction F as [|x y xs l (n & m & t & Q) F IH]; [contradiction|]. intros [->|I1]; [exists x, n, m, t; exact Q|auto].
Qed.
Lemma eye_true ops s p c r now ents k l e : ysane ops -> well_configured compile ops -> reach ops s -> yfits s -> ysteady p ops now ->
  running s p c r -> y_view s p now ents = Some l -> In e (rows k l) ->
  asked k ents /\ exists n t m, handed compile [] ops p t m /\ (now - yc_timeout c <= t)%Z /\ sm_cmd m = announces k /\ listens c k m /\
    lets_in compile c k m /\ was ops k m /\ shows n m e /\ row_label e = label k m.
Proof.
  intros SA WC R F ST (q & A & <- & _) VW I1. unfold y_view in VW. rewrite A in VW. assert (l = snd (mon_get now ents (yp_mon q))) as -> by congruence. clear VW. pose proof (view_row _ _ _ _ _ _ _ _ WC ST R A I1) as AS. split; [exact AS|].
  rewrite <- (app_nil_r ops) in WC, ST. destruct (cut ops [] s s p q now WC ST R) as (_ & G & h & q' & A' & _ & M & _ & U & UP & FR); auto.
  { rewrite app_nil_r. exact R. } { intros []. }
  rewrite A in A'. injection A' as <-. cbn [story] in *. destruct (rows_lists (yp_cfg q) _ now ents (yp_mon q) U G UP M k) as [L _]. specialize (L AS).
  pose proof (rows_kind _ _ _ I1) as KE. destruct (lists_row _ _ _ _ _ _ _ L I1) as (lb & n & m & t & K & T & SH).
  pose proof (known_let (yp_cfg q) k lb _ U n m t K) as LI. destruct (known_in _ _ _ _ _ _ _ _ _ _ K) as (IH & C & LB).
  rewrite app_nil_r in IH. destruct (FR t m IH) as (oa & i & ob & sa & m0 & -> & RA & N & D & AC).
  destruct (heard_from oa (YHear p i t :: ob) s sa i m0 m SA R F RA N D) as [SD ->]. rewrite arrives_cmd in C.
  assert (OK : of_kind k m0) by (left; exact C). destruct (arrives_of_kind k m0 OK) as (X1 & X2 & X3 & X4).
  exists n, t, m0. split; [exists oa, i, ob, sa; auto|]. split; [exact T|]. split; [exact C|]. split; [|split; [|split; [|split]]].
  - apply (arrives_listens (yp_cfg q) k m0 OK), (accept_listens (yp_cfg q) k); [left; rewrite arrives_cmd; exact C|exact AC].
  - unfold lets_in in *. rewrite X2 in LI. exact LI.
  - apply was_app. eapply said_kind; eauto.
  - apply arrives_shows; [rewrite KE; exact C|exact SH].
  - rewrite (shows_label _ _ _ SH), KE. exact X1.
Qed.
Lemma lists_once {V} c k h (sh : Z -> sample -> V -> Prop) old (f : V -> text) (l : list V) : (forall n m e, In e l -> sh n m e -> f e = label k m) ->
  lists (fun lb => known compile (yc_excl c) (yc_incl c) k (yc_timeout c) (fun m => label k m = lb) h) sh old l -> NoDup (map f l).
Proof.
  intros SH (xs & ND & F & _). assert (map f l = xs) as ->; [|exact ND]. clear ND. induction F as [|x y xs l (n & m & t & K & _ & Q) F IH]; [reflexivity|].
  cbn. rewrite IH by (intros n' m' e I1; apply SH; right; exact I1). f_equal. rewrite (SH n m y (or_introl eq_refl) Q).
  destruct (known_in _ _ _ _ _ _ _ _ _ _ K) as (_ & _ & ->). reflexivity.
Qed.
Lemma eye_once ops s p now ents k l : well_configured compile ops -> reach ops s -> ysteady p ops now -> y_view s p now ents = Some l -> NoDup (map row_label (rows k l)).
Proof.
  intros WC R ST VW. unfold y_view in VW. destruct (aget p (yn_procs s)) as [q|] eqn:A; [|discriminate]. assert (l = snd (mon_get now ents (yp_mon q))) as -> by congruence. clear VW.
  rewrite <- (app_nil_r ops) in WC, ST. destruct (cut ops [] s s p q now WC ST R) as (_ & G & h & q' & A' & _ & M & _ & U & UP & FR); auto.
  { rewrite app_nil_r. exact R. } { intros []. }
  rewrite A in A'. injection A' as <-. cbn [story] in *. destruct (rows_lists (yp_cfg q) _ now ents (yp_mon q) U G UP M k) as [L N].
  unfold asked in *. destruct (Z.testbit ents (Z.of_nat (bit_of k))); [|rewrite N by discriminate; constructor].
  eapply lists_once; [|apply L; reflexivity]. intros n m e I1 SH. rewrite (shows_label _ _ _ SH), (rows_kind _ _ _ I1). reflexivity.
Qed.
Lemma lists_get {V} (knows : text -> option (Z * sample * Z) -> Prop) (sh : Z -> sample -> V -> Prop) old (l : list V) lb n m t :
  (forall x y z, knows x y -> knows x z -> y = z) ->
  lists knows sh old l -> knows lb (Some (n, m, t)) -> (old <= t)%Z -> exists e, In e l /\ sh n m e.
Proof.
  intros FU (xs & _ & F & A) K T. specialize (A _ _ _ _ K T). clear -A F FU K. induction F as [|x y xs l (n' & m' & t' & K' & _ & Q) F IH]; [contradiction|].
  destruct A as [->|A]; [|destruct (IH A) as (e & I1 & Q'); exists e; split; [right; exact I1|exact Q']].
  specialize (FU _ _ _ K K'). injection FU as -> -> ->. exists y. split; [left; reflexivity|exact Q].
Qed.
(** A datagram that is heard. *)
Lemma heard p i t s1 s2 q1 m : step (YHear p i t) s1 = DOk s2 -> nth_error (yn_sent s1) i = Some m -> aget p (yn_procs s1) = Some q1 ->
  wf_sample m -> (len (ser_sample m) < 2 ^ 32)%Z -> forall k, of_kind k m -> listens (yp_cfg q1) k m -> news p (YHear p i t) s1 = [(t, MSample (arrives m))].
Proof.
  intros _ N A W F k O L. cbn [news]. rewrite Nat.eqb_refl, N, A. unfold brings. rewrite (sample_round m W F).
  assert (O' : of_kind k (arrives m)) by (unfold of_kind in *; rewrite arrives_cmd; exact O).
  rewrite (proj2 (accept_listens (yp_cfg q1) k (arrives m) O')); [reflexivity|]. apply arrives_listens; assumption.
Qed.
Lemma later_sent ops1 ops2 s1 s i m : reach ops1 s1 -> reach (ops1 ++ ops2) s -> nth_error (yn_sent s1) i = Some m -> In m (yn_sent s).
Proof.
  intros R1 R N. apply reach_app in R. destruct R as (s1' & R1' & E). unfold yreach in R1, R1'. rewrite R1 in R1'. injection R1' as <-.
  eapply nth_error_In, sent_later; eauto.
Qed.
(** The samples of the history after a moment are those handed over since. *)
Lemma since ops0 l s0 s p q0 t m : ysane (ops0 ++ l) -> reach ops0 s0 -> reach (ops0 ++ l) s -> yfits s -> run l s0 = DOk s -> aget p (yn_procs s0) = Some q0 -> lives p l ->
  In (t, MSample m) (story p l s0) -> exists m0, m = arrives m0 /\ handed compile ops0 l p t m0 /\ forall k, of_kind k m0 -> listens (yp_cfg q0) k m0.
Proof.
  intros SA R0 R F E A V I1. destruct (story_from p l s0 s q0 t m (reach_awake _ _ R0) A V E I1) as (la & i & lb & sa & m0 & -> & RA & N & D & AC).
  assert (RA' : reach (ops0 ++ la) sa) by (apply reach_app; eauto).
  rewrite app_assoc in SA, R. destruct (heard_from (ops0 ++ la) _ s sa i m0 m SA R F RA' N D) as [_ ->].
  exists m0. split; [reflexivity|]. split; [exists la, i, lb, sa; auto|]. intros k O. apply (arrives_listens _ k m0 O), (accept_listens _ k); [|exact AC].
  unfold of_kind in *. rewrite arrives_cmd. exact O.
Qed.
Section After.
Variables (ops1 : list yop) (p i : nat) (t : Z) (ops2 : list yop) (s1 s : ynet) (c : ycfg) (r : process) (now : Z) (m : sample) (k : kind).
Let hear := YHear p i t.
Let ops := ops1 ++ hear :: ops2.
Hypothesis SA : ysane ops.
Hypothesis WC : well_configured compile ops.
Hypothesis ST : ysteady p ops now.
Hypothesis R1 : reach ops1 s1.
Hypothesis R : reach ops s.
Hypothesis F : yfits s.
Hypothesis RUN : running s1 p c r.
Hypothesis V : lives p ops2.
Hypothesis N : nth_error (yn_sent s1) i = Some m.
Hypothesis O : of_kind k m.
Hypothesis LS : listens c k m.
Lemma after : exists h1 h2 q, aget p (yn_procs s) = Some q /\ good_filters compile c /\
  mon_run compile (h1 ++ (t, MSample (arrives m)) :: h2) (mon_create (yc_timeout c) (yc_excl c) (yc_incl c)) = DOk (yp_mon q) /\
  unfiltered (h1 ++ (t, MSample (arrives m)) :: h2) /\ upwards (map fst (h1 ++ (t, MSample (arrives m)) :: h2) ++ [now]) /\
  (forall t' m', In (t', MSample m') h2 -> exists m0, m' = arrives m0 /\ handed compile (ops1 ++ [hear]) ops2 p t' m0 /\ forall k', of_kind k' m0 -> listens c k' m0).
Proof.
  destruct RUN as (q1 & A & <- & _).
  assert (V' : lives p (hear :: ops2)) by (intros [X|X]; [discriminate|exact (V X)]).
  destruct (cut ops1 (hear :: ops2) s1 s p q1 now WC ST R1 R A V') as (E & G & h1 & q & A' & C & M & _ & U & UP & _).
  cbn [yn_run] in E. destruct (step hear s1) as [s2| |] eqn:S1; cbn [dbind] in E; try discriminate.
  pose proof (later_sent _ _ _ _ _ _ R1 R N) as IN. pose proof SA as SA1. apply Forall_app in SA1. destruct SA1 as [SA1 _].
  destruct (reach_good ops1 s1 SA1 R1) as [_ GS]. rewrite Forall_forall in GS. destruct (GS m (nth_error_In _ _ N)) as [W _].
  unfold hear in S1. pose proof (heard p i t s1 s2 q1 m S1 N A W (F m IN) k O LS) as NW.
  assert (SE : story p (hear :: ops2) s1 = (t, MSample (arrives m)) :: story p ops2 s2).
  { change (story p (hear :: ops2) s1) with (news p (YHear p i t) s1 ++ match step (YHear p i t) s1 with DOk s' => story p ops2 s' | _ => [] end). rewrite NW, S1. reflexivity. }
  rewrite SE in M, U, UP.
  exists h1, (story p ops2 s2), q. split; [exact A'|]. split; [exact G|]. split; [exact M|]. split; [exact U|]. split; [exact UP|].
  intros t' m' I1. assert (R2 : reach (ops1 ++ [hear]) s2). { apply reach_app. exists s1. split; [exact R1|]. change (dbind (step (YHear p i t) s1) (run []) = DOk s2). rewrite S1. reflexivity. }
  destruct (step_here _ s1 s2 q1 (reach_awake _ _ R1) S1 A) as (q2 & A2 & C2 & _); [discriminate|]. cbn [at_proc] in A2. rewrite <- C2.
  unfold ops in SA, R. apply (since (ops1 ++ [hear]) ops2 s2 s p q2 t' m'); auto; rewrite <- app_assoc; assumption.
Qed.
Lemma eye_stays ents l : sm_cmd m = announces k -> lets_in compile c k m -> (now - yc_timeout c <= t)%Z -> asked k ents ->
  (forall t' m', handed compile (ops1 ++ [hear]) ops2 p t' m' -> sm_cmd m' = withdraws k -> listens c k m' -> label k m' <> label k m) ->
  y_view s p now ents = Some l ->
  exists e n m' t', In e (rows k l) /\ row_label e = label k m /\ shows n m' e /\ (t <= t')%Z /\ sm_cmd m' = announces k /\ label k m' = label k m /\
    (m' = m \/ handed compile (ops1 ++ [hear]) ops2 p t' m').
Proof.
  intros C LI T AS NW VW. destruct after as (h1 & h2 & q & A & G & M & U & UP & SI). unfold y_view in VW. rewrite A in VW. assert (l = snd (mon_get now ents (yp_mon q))) as -> by congruence. clear VW.
  destruct (arrives_of_kind k m O) as (X1 & X2 & _ & _).
  destruct (rows_lists c _ now ents (yp_mon q) U G UP M k) as [L _]. specialize (L AS).
  change (h1 ++ (t, MSample (arrives m)) :: h2) with (h1 ++ [(t, MSample (arrives m))] ++ h2) in *. rewrite app_assoc in *.
  pose proof (unfiltered_app _ _ U) as U1. pose proof (unfiltered_good c _ U G) as GD. pose proof (good_app _ _ _ _ _ GD) as GD1. pose proof (up_front _ _ _ UP) as UP1.
  destruct (known_total c _ now UP1 GD1 k (label k m)) as (x & KX). pose proof KX as KX0. apply known_snoc in KX. destruct KX as (y & KY & S2). cbn [fst snd] in S2.
  assert (AC : accepted compile (yc_excl c) (yc_incl c) k h1 (arrives m)).
  { apply (unfiltered_accepted c k h1); [apply (unfiltered_app _ _ U1)|]. unfold lets_in in *. rewrite X2. exact LI. }
  assert (exists n0, x = Some (n0, arrives m, t)) as (n0 & ->).
  { destruct S2 as [(_ & _ & _ & ->)|[(C' & _)|(NO & _)]]; [eauto| |].
    - rewrite arrives_cmd, C in C'. destruct k; discriminate.
    - exfalso. apply NO. split; [exact X1|]. right. rewrite arrives_cmd. auto. }
  destruct (stays_known c _ k (label k m) n0 (arrives m) t now KX0 T h2 U GD UP) as (n & m' & t' & K & T' & Q).
  { intros t' m' I1 CW. destruct (SI t' m' I1) as (m0 & -> & H & LL). rewrite arrives_cmd in CW. assert (O0 : of_kind k m0) by (right; exact CW).
    destruct (arrives_of_kind k m0 O0) as (-> & _). apply (NW t' m0 H CW). apply LL, O0. }
  destruct (lists_get _ _ _ _ _ _ _ _ (fun x y z => known_fun _ _ _ _ _ _ _ y z) L K) as (e & I1 & SH); [lia|].
  pose proof (rows_kind _ _ _ I1) as KE. pose proof (shows_label _ _ _ SH) as LE. rewrite KE in LE.
  destruct Q as [(-> & ->)|(I2 & C2 & L2)].
  - exists e, n, m, t. split; [exact I1|]. split; [rewrite LE; exact X1|]. split; [apply arrives_shows; [rewrite KE; exact C|exact SH]|]. split; [lia|]. auto.
  - destruct (SI t' m' I2) as (m0 & -> & H & _). rewrite arrives_cmd in C2. assert (O0 : of_kind k m0) by (left; exact C2). destruct (arrives_of_kind k m0 O0) as (Y1 & _).
    exists e, n, m0, t'. split; [exact I1|]. split; [rewrite LE; exact L2|]. split; [apply arrives_shows; [rewrite KE; exact C2|exact SH]|]. split; [lia|].
    split; [exact C2|]. split; [rewrite <- Y1; exact L2|]. right. exact H.
Qed.
Lemma eye_gone ents l : sm_cmd m = withdraws k ->
  (forall t' m', handed compile (ops1 ++ [hear]) ops2 p t' m' -> sm_cmd m' = announces k -> listens c k m' -> lets_in compile c k m' -> label k m' <> label k m) ->
  y_view s p now ents = Some l -> forall e, In e (rows k l) -> row_label e <> label k m.
Proof.
  intros C NW VW e I1 LE. destruct after as (h1 & h2 & q & A & G & M & U & UP & SI). unfold y_view in VW. rewrite A in VW. assert (l = snd (mon_get now ents (yp_mon q))) as -> by congruence. clear VW.
  destruct (arrives_of_kind k m O) as (X1 & X2 & _ & _). pose proof (view_row _ _ _ _ _ _ _ _ WC ST R A I1) as AS.
  destruct (rows_lists c _ now ents (yp_mon q) U G UP M k) as [L _]. specialize (L AS).
  change (h1 ++ (t, MSample (arrives m)) :: h2) with (h1 ++ [(t, MSample (arrives m))] ++ h2) in *. rewrite app_assoc in *.
  pose proof (unfiltered_good c _ U G) as GD. pose proof (good_app _ _ _ _ _ GD) as GD1. pose proof (up_front _ _ _ UP) as UP1.
  destruct (known_total c _ now UP1 GD1 k (label k m)) as (x & KX). pose proof KX as KX0. apply known_snoc in KX. destruct KX as (y & KY & S2). cbn [fst snd] in S2.
  assert (x = None) as ->.
  { destruct S2 as [(C' & _)|[(_ & _ & ->)|(NO & _)]]; [|reflexivity|].
    - rewrite arrives_cmd, C in C'. destruct k; discriminate.
    - exfalso. apply NO. split; [exact X1|]. left. rewrite arrives_cmd. exact C. }
  destruct (lists_row _ _ _ _ _ _ _ L I1) as (lb & n & m' & t' & K & T & SH). pose proof (rows_kind _ _ _ I1) as KE.
  pose proof (known_in _ _ _ _ _ _ _ _ _ _ K) as (_ & C2 & L2). pose proof (shows_label _ _ _ SH) as LE2. rewrite KE in LE2. rewrite LE, L2 in LE2. subst lb.
  pose proof (known_let c k _ _ U _ _ _ K) as LI.
  destruct (stays_unknown c _ k (label k m) KX0 h2 n m' t') as (I2 & C3 & L3); [rewrite LE2; exact K|].
  destruct (SI t' m' I2) as (m0 & -> & H & LL). rewrite arrives_cmd in C2. assert (O0 : of_kind k m0) by (left; exact C2). destruct (arrives_of_kind k m0 O0) as (Y1 & Y2 & _).
  apply (NW t' m0 H C2); [apply LL, O0|unfold lets_in in *; rewrite Y2 in LI; exact LI|]. rewrite <- Y1. exact L3.
Qed.
End After.

(** ** Cycles *)
Lemma cycle_in q m : In m (y_cycle q) <-> m = y_proc_reg (yp_cfg q) (yp_self q) \/ exists x o, In (x, o) (yp_objs q) /\ m = y_reg (yp_cfg q) (yp_self q) o.
Proof.
  unfold y_cycle. cbn [In]. split.
  - intros [<-|I1]; [auto|]. right. apply in_flat_map in I1. destruct I1 as (n & _ & I1). apply in_map_iff in I1. destruct I1 as ([x o] & <- & I1). apply filter_In in I1. exists x, o. tauto.
  - intros [->|(x & o & I1 & ->)]; [auto|]. right. apply in_flat_map. exists (y_rank o). split; [unfold y_rank; destruct (yo_body o); cbn; tauto|].
    apply in_map_iff. exists (x, o). split; [reflexivity|]. apply filter_In. split; [exact I1|]. cbn. apply Nat.eqb_refl.
Qed.
Lemma cycle_length q : length (y_cycle q) = S (length (yp_objs q)).
Proof.
  unfold y_cycle. cbn [length]. f_equal. cbn [flat_map]. rewrite !app_length, !map_length. cbn [length].
  induction (yp_objs q) as [|[x o] l IH]; [reflexivity|]. cbn [filter snd length]. assert (X : y_rank o = 0 \/ y_rank o = 1 \/ y_rank o = 2 \/ y_rank o = 3) by (unfold y_rank; destruct (yo_body o); auto).
  destruct X as [-> |[-> |[-> | ->]]]; cbn [Nat.eqb length]; lia.
Qed.
Lemma eye_cycle ops s p c r s' : ysane ops -> reach ops s -> running s p c r -> step (YCollect p) s = DOk s' ->
  exists q out, aget p (yn_procs s) = Some q /\ yn_sent s' = yn_sent s ++ out /\ length out = S (length (yp_objs q)) /\
    (exists m, In m out /\ sm_cmd m = announces KProcess /\ describes_process c r m) /\
    (forall x o, in_process s p x c r o -> exists m, In m out /\ sm_cmd m = announces (kind_of (yo_body o)) /\
       (describes c r o m \/ (blank m /\ exists v, yo_body o = YSrv v /\ ~ all_ears c v))) /\
    (forall m, In m out -> (sm_cmd m = announces KProcess /\ describes_process c r m) \/
       exists x o, in_process s p x c r o /\ sm_cmd m = announces (kind_of (yo_body o)) /\
         (describes c r o m \/ (blank m /\ exists v, yo_body o = YSrv v /\ ~ all_ears c v))).
Proof.
  intros SA R (q & A & <- & <-) E. cbn [yn_step] in E. destruct (y_on_same _ _ _ _ _ E A) as (q' & out & X & ->). injection X as <- <-.
  assert (DP : describes_process (yp_cfg q) (yp_self q) (y_proc_reg (yp_cfg q) (yp_self q))) by (unfold describes_process, from; cbn; repeat split).
  exists q, (y_cycle q). split; [exact A|]. split; [reflexivity|]. split; [apply cycle_length|]. split; [|split].
  - exists (y_proc_reg (yp_cfg q) (yp_self q)). split; [left; reflexivity|]. split; [reflexivity|exact DP].
  - intros x o (q1 & A1 & _ & _ & X). rewrite A in A1. injection A1 as <-. exists (y_reg (yp_cfg q) (yp_self q) o). split; [apply cycle_in; right; exists x, o; split; [apply aget_in; exact X|reflexivity]|].
    split; [apply y_reg_cmd|apply y_reg_was].
  - intros m I1. apply cycle_in in I1. destruct I1 as [->|(x & o & I1 & ->)]; [left; split; [reflexivity|exact DP]|]. right. exists x, o. split; [|split; [apply y_reg_cmd|apply y_reg_was]].
    exists q. split; [exact A|]. split; [reflexivity|]. split; [reflexivity|]. apply in_aget; [|exact I1]. apply (pg_keys ops). apply (proj1 (reach_good ops s SA R) p q A).
Qed.
(** One cycle, one arrival, one look. *)
Lemma eye_arrives ops s a c r s' i m p c' r' t s2 now ents l k : ysane ops -> well_configured compile ops -> reach ops s -> running s a c r -> step (YCollect a) s = DOk s' ->
  nth_error (yn_sent s') i = Some m -> running s p c' r' ->
  sm_cmd m = announces k -> listens c' k m -> lets_in compile c' k m -> step (YHear p i t) s' = DOk s2 -> yfits s2 -> ysteady p (ops ++ [YCollect a; YHear p i t]) now ->
  (now - yc_timeout c' <= t)%Z -> asked k ents -> y_view s2 p now ents = Some l -> exists n e, In e (rows k l) /\ shows n m e.
Proof.
  intros SA WC R RA E N RP C LS LI E2 F ST T AS VW.
  assert (R1 : reach (ops ++ [YCollect a]) s') by (apply reach_app; exists s; split; [exact R|change (dbind (step (YCollect a) s) (run []) = DOk s'); rewrite E; reflexivity]).
  assert (X : ops ++ [YCollect a; YHear p i t] = (ops ++ [YCollect a]) ++ YHear p i t :: []) by (rewrite <- app_assoc; reflexivity).
  assert (R2 : reach ((ops ++ [YCollect a]) ++ [YHear p i t]) s2) by (apply reach_app; exists s'; split; [exact R1|change (dbind (step (YHear p i t) s') (run []) = DOk s2); rewrite E2; reflexivity]).
  assert (RP' : running s' p c' r').
  { destruct RA as (qa & A & _). cbn [yn_step] in E. destruct (y_on_same _ _ _ _ _ E A) as (q' & out & X' & ->). injection X' as <- <-. destruct RP as (q & A' & Q). exists q. split; [|exact Q].
    cbn. rewrite aget_aset. destruct (eqb p a) eqn:EQ; [|exact A']. apply eqb_true in EQ. subst. congruence. }
  rewrite X in ST. destruct (eye_stays (ops ++ [YCollect a]) p i t [] s' s2 c' r' now m k) with (ents := ents) (l := l) as (e & n & m' & t' & I1 & _ & SH & _ & _ & _ & Q); auto.
  - apply Forall_app. split; [apply Forall_app; split; [exact SA|]|]; repeat constructor.
  - intros p0 c0 r0 I0. rewrite !in_app_iff in I0. destruct I0 as [[I0|[I0|[]]]|[I0|[]]]; try discriminate. exact (WC _ _ _ I0).
  - intros [].
  - left. exact C.
  - intros t0 m0 (la & j & lb & s3 & EQ & _). destruct la; discriminate.
  - destruct Q as [->|(la & j & lb & s3 & EQ & _)]; [eauto|destruct la; discriminate].
Qed.
Lemma eye_seen ops s a x c r o s' : let k := kind_of (yo_body o) in
  ysane ops -> well_configured compile ops -> reach ops s -> in_process s a x c r o -> (forall v, yo_body o = YSrv v -> all_ears c v) ->
  step (YCollect a) s = DOk s' ->
  exists i m, nth_error (yn_sent s') i = Some m /\ sm_cmd m = announces k /\ describes c r o m /\
    forall p c' r' t s2 now ents l, running s p c' r' -> listens c' k m -> lets_in compile c' k m ->
      step (YHear p i t) s' = DOk s2 -> yfits s2 -> ysteady p (ops ++ [YCollect a; YHear p i t]) now -> (now - yc_timeout c' <= t)%Z ->
      asked k ents -> y_view s2 p now ents = Some l -> exists n e, In e (rows k l) /\ shows n m e.
Proof.
  intros k SA WC R (q & A & <- & <- & X) EA E. set (c := yp_cfg q) in *. set (r := yp_self q) in *.
  pose proof E as E'. cbn [yn_step] in E'. destruct (y_on_same _ _ _ _ _ E' A) as (q' & out & X' & ->). injection X' as <- <-.
  assert (I1 : In (y_reg c r o) (yn_sent s ++ y_cycle q)).
  { apply in_app_iff. right. apply cycle_in. right. exists x, o. split; [apply aget_in, X|reflexivity]. }
  apply In_nth_error in I1. destruct I1 as (i & N). exists i, (y_reg c r o). split; [exact N|]. split; [apply y_reg_cmd|]. split; [apply y_reg_tells, EA|].
  intros p c' r' t s2 now ents l RP LS LI E2 F ST T AS VW. eapply (eye_arrives ops s a c r); eauto; [exists q; auto|apply y_reg_cmd].
Qed.
(** ** Ends *)
Lemma y_unreg_label c r o m0 : describes c r o m0 -> let k := kind_of (yo_body o) in
  label k (y_unreg c r o) = label k m0 /\ forall c', listens c' k (y_unreg c r o) <-> listens c' k m0.
Proof.
  intros [(H & P & I1) D] k. subst k. unfold y_unreg, listens, group_in, label. destruct (yo_body o) as [t|t|v|v]; cbn [kind_of called id_of] in *.
  - destruct D as (N & G & _). cbn. rewrite H, P, I1, N, G. split; [reflexivity|]. intros c'. tauto.
  - destruct D as (N & G & _). cbn. rewrite H, P, I1, N, G. split; [reflexivity|]. intros c'. tauto.
  - destruct D as (N & _). cbn. rewrite H, P, I1, N. split; [reflexivity|]. intros c'. tauto.
  - destruct D as (N & _). cbn. rewrite H, P, I1, N. split; [reflexivity|]. intros c'. tauto.
Qed.
Lemma eye_ends ops s p x c r o s' : reach ops s -> in_process s p x c r o -> run [YEnd p x; YFlush p] s = DOk s' -> let k := kind_of (yo_body o) in
  (exists out m, yn_sent s' = yn_sent s ++ out ++ [m] /\ sm_cmd m = withdraws k /\
     forall m0, describes c r o m0 -> label k m = label k m0 /\ forall c', listens c' k m <-> listens c' k m0) /\
  (forall c' r' o', ~ in_process s' p x c' r' o') /\ (forall s'', step (YFlush p) s' = DOk s'' -> yn_sent s'' = yn_sent s').
Proof.
  intros R (q & A & <- & <- & X) E k. cbn [yn_run] in E. destruct (step (YEnd p x) s) as [s1| |] eqn:E1; cbn [dbind] in E; try discriminate.
  cbn [yn_step] in E1. destruct (y_on_same _ _ _ _ _ E1 A) as (q1 & out1 & F1 & ->). rewrite X in F1. injection F1 as <- <-.
  destruct (step (YFlush p) _) as [s2| |] eqn:E2; cbn [dbind] in E; try discriminate. injection E as ->. cbn [yn_step] in E2.
  destruct (y_on_same _ _ _ _ _ E2 (aget_aset_same _ _ _)) as (q2 & out2 & F2 & ->). injection F2 as <- <-. cbn [yn_sent yn_procs]. split; [|split].
  - exists (yp_applied q), (y_unreg (yp_cfg q) (yp_self q) o). split; [cbn; rewrite app_nil_r; reflexivity|]. split; [apply y_unreg_cmd|]. intros m0 D. exact (y_unreg_label _ _ _ _ D).
  - intros c' r' o' (q3 & A3 & _ & _ & X3). cbn in A3. rewrite aget_aset_same in A3. injection A3 as <-. cbn in X3. rewrite aget_adel, eqb_refl in X3. discriminate.
  - intros s'' E3. cbn [yn_step] in E3. destruct (y_on_same _ _ _ _ _ E3 (aget_aset_same _ _ _)) as (q3 & out3 & F3 & ->). injection F3 as <- <-. cbn. apply app_nil_r.
Qed.
Lemma eye_stops ops s p c r s' : reach ops s -> running s p c r -> run [YStop p; YFlush p] s = DOk s' ->
  exists out m, yn_sent s' = yn_sent s ++ out ++ [m] /\ sm_cmd m = withdraws KProcess /\
     forall m0, describes_process c r m0 -> label KProcess m = label KProcess m0 /\ forall c', listens c' KProcess m <-> listens c' KProcess m0.
Proof.
  intros R (q & A & <- & <-) E. cbn [yn_run] in E. destruct (step (YStop p) s) as [s1| |] eqn:E1; cbn [dbind] in E; try discriminate.
  cbn [yn_step] in E1. destruct (y_on_same _ _ _ _ _ E1 A) as (q1 & out1 & F1 & ->). injection F1 as <- <-.
  destruct (step (YFlush p) _) as [s2| |] eqn:E2; cbn [dbind] in E; try discriminate. injection E as ->. cbn [yn_step] in E2.
  destruct (y_on_same _ _ _ _ _ E2 (aget_aset_same _ _ _)) as (q2 & out2 & F2 & ->). injection F2 as <- <-. cbn [yn_sent yn_procs].
  exists (yp_applied q), (y_proc_unreg (yp_cfg q) (yp_self q)). split; [cbn; rewrite app_nil_r; reflexivity|]. split; [reflexivity|].
  intros m0 ((H & P & _) & N & _). unfold listens, group_in, label. cbn. rewrite H, P, N. split; [reflexivity|]. intros c'. tauto.
Qed.
(** ** Always defined *)
Lemma eye_defined ops : well_configured compile ops -> (forall p, upwards (ytimes p ops)) -> exists s, reach ops s.
Proof.
  induction ops as [|o ops IH] using rev_ind; intros WC UP; [exists ynet0; reflexivity|].
  destruct IH as (s & R).
  { intros p c r I1. apply (WC p c r), in_app_iff. auto. }
  { intros p. specialize (UP p). rewrite ytimes_app in UP. apply upwards_sorted in UP. apply upwards_sorted.
    clear -UP. induction (ytimes p ops) as [|x l IH]; [constructor|]. cbn in UP. inversion UP as [|? ? S F]; subst. constructor; [apply IH, S|]. apply Forall_app in F. tauto. }
  assert (X : (exists s', step o s = DOk s') -> exists s', reach (ops ++ [o]) s').
  { intros (s' & E). exists s'. apply reach_app. exists s. split; [exact R|]. change (dbind (step o s) (run []) = DOk s'). rewrite E. reflexivity. }
  apply X. clear X.
  assert (D : forall p f, (forall q, aget p (yn_procs s) = Some q -> exists x, f q = DOk x) -> exists s', y_on p s f = DOk s').
  { intros p f H. unfold y_on. destruct (aget p (yn_procs s)) as [q|]; [|eauto]. destruct (H q eq_refl) as (x & ->). cbn. eauto. }
  destruct o as [p c r|p r|p x o|p x b|p x|p x|p|p|p|p|p i t|p e t]; cbn [yn_step]; try (apply D; intros q A; eauto; fail).
  - destruct (aget p _); eauto.
  - apply D. intros q A. destruct (aget x _); eauto.
  - apply D. intros q A. destruct (aget x _) as [o|]; [destruct (y_same_kind _ _)|]; eauto.
  - apply D. intros q A. destruct (aget x _); eauto.
  - apply D. intros q A. destruct (aget x _); eauto.
  - eauto.
  - destruct (nth_error (yn_sent s) i) as [m0|] eqn:N; [|eauto]. apply D. intros q A. rewrite (datagram_is t m0 q (reach_awake _ _ R _ _ A)).
    destruct (brings (yp_cfg q) m0) as [|m l]; [cbn; eauto|].
    assert (WC1 : well_configured compile (ops ++ [])) by (rewrite app_nil_r; intros p0 c0 r0 I1; apply (WC p0 c0 r0), in_app_iff; auto).
    assert (ST : ysteady p (ops ++ []) t).
    { rewrite app_nil_r. unfold ysteady. specialize (UP p). rewrite ytimes_app in UP. cbn in UP. rewrite Nat.eqb_refl in UP. exact UP. }
    destruct (cut ops [] s s p q t WC1 ST R) as (_ & G & h & q' & A' & _ & M & _ & U & US & _); auto.
    { rewrite app_nil_r. exact R. } { intros []. }
    rewrite A in A'. injection A' as <-. cbn [story] in *. rewrite app_nil_r in *.
    assert (U1 : unfiltered (h ++ [(t, MSample m)])).
    { intros t0 o I1. apply in_app_iff in I1. destruct I1 as [I1|[I1|[]]]; [exact (U _ _ I1)|]. injection I1 as <- <-. eauto. }
    assert (S2 : upwards (map fst (h ++ [(t, MSample m)]) ++ [t])).
    { rewrite map_app, <- app_assoc. cbn. apply upwards_sorted in US. apply upwards_sorted. clear -US. induction (map fst h) as [|x l IH]; cbn in *; [repeat constructor; lia|].
      inversion US as [|? ? S F]; subst. constructor; [apply IH, S|]. rewrite Forall_forall in *. intros y I1. apply F. rewrite in_app_iff in *. cbn in *. tauto. }
    destruct (run_inv compile (yc_excl (yp_cfg q)) (yc_incl (yp_cfg q)) (yc_timeout (yp_cfg q)) _ t S2 (unfiltered_good (yp_cfg q) _ U1 G)) as (mo & RM & _).
    rewrite mon_run_app, M in RM. cbn in RM. destruct (mon_apply compile t m (yp_mon q)) as [mo'| |]; cbn in RM; try discriminate. cbn. eauto.
Qed.
End Eye.

(** ** Examples *)
Lemma plain_filters c : yc_excl c = [] -> yc_incl c = [] -> good_filters y_any c.
Proof.
  intros E1 E2. assert (N : forall p, ~ listed_pattern [] p).
  { intros p (a & b & E & NE & _). symmetry in E. apply app_eq_nil in E. destruct E as [_ E]. apply app_eq_nil in E. tauto. }
  split; rewrite E1, E2; [intros p [X|X]|intros p q [X|X]]; destruct (N _ X).
Qed.
Lemma plain_config ops : Forall (fun o => match o with YStart _ c _ => yc_excl c = [] /\ yc_incl c = [] | _ => True end) ops -> well_configured y_any ops.
Proof. intros F p c r I1. rewrite Forall_forall in F. specialize (F _ I1). cbn in F. apply plain_filters; apply F. Qed.
Lemma y_run_ok ops p now : ysane ops -> well_configured y_any ops -> upwards (ytimes p ops ++ [now]) ->
  match yn_run y_any ops ynet0 with
  | DOk s => forallb (fun m => (len (ser_sample m) <? 2 ^ 32)%Z) (yn_sent s) = true /\ (if aget p (yn_procs s) then true else false) = true
  | _ => False
  end -> y_run_of ops (y_end ops) p now (y_list ops p now).
Proof.
  intros SA WC UP H. unfold y_run_of, y_list, y_end, yreach. destruct (yn_run y_any ops ynet0) as [s| |]; [|contradiction|contradiction]. destruct H as [H1 H2].
  split; [exact SA|]. split; [exact WC|]. split; [reflexivity|]. split; [|split; [exact UP|]].
  - intros m I1. rewrite forallb_forall in H1. apply Z.ltb_lt, H1, I1.
  - unfold y_view. destruct (aget p (yn_procs s)); [reflexivity|discriminate].
Qed.
Ltac sane := repeat first [apply Forall_cons|apply Forall_nil]; cbn [ysane_op]; try exact Logic.I;
  unfold wf_process, wf_body, wf_topic, wf_method, wf_service, i32, i64, u32; cbn; repeat first [apply conj|apply Forall_nil|apply Forall_cons]; try lia; try (cbn; lia); try (repeat constructor; cbn; lia).
Ltac plain := apply plain_config; repeat first [apply Forall_cons|apply Forall_nil]; cbn; auto.
Ltac runs := apply y_run_ok; [sane|plain|vm_compute; repeat split; discriminate|vm_compute; split; reflexivity].
Lemma run_seen : y_run_of y_seen (y_end y_seen) 2 1001 (y_list y_seen 2 1001).
Proof. runs. Qed.
Lemma objs_all s f a x c r o : forallb (fun pq => forallb (fun xo => f (yp_cfg (snd pq)) (snd xo)) (yp_objs (snd pq))) (yn_procs s) = true -> in_process s a x c r o -> f c o = true.
Proof.
  intros H (q & A & <- & _ & X). rewrite forallb_forall in H. specialize (H _ (aget_in _ _ _ A)). cbn in H. rewrite forallb_forall in H. exact (H _ (aget_in _ _ _ X)).
Qed.
Lemma run_gone : y_run_of y_gone (y_end y_gone) 2 2000 (y_list y_gone 2 2000).
Proof. runs. Qed.
Lemma hears ops la p i t lb m : ops = la ++ YHear p i t :: lb -> match yn_run y_any la ynet0 with DOk s => nth_error (yn_sent s) i = Some m | _ => False end -> handed y_any [] ops p t m.
Proof. intros E H. destruct (yn_run y_any la ynet0) as [s1| |] eqn:R; [|contradiction|contradiction]. exists la, i, lb, s1. auto. Qed.
Lemma eye_late : exists ops1 i t m ops2 s1 s now l e, y_run_of (ops1 ++ YHear 2 i t :: ops2) s 2 now l /\ yreach y_any ops1 s1 /\
  nth_error (yn_sent s1) i = Some m /\ sm_cmd m = withdraws KPublisher /\ (exists c r, running s1 2 c r /\ listens c KPublisher m) /\ hushed ops2 /\
  (forall a x c r o, in_process s a x c r o -> yo_id o <> sm_entity m) /\ In e (rows KPublisher l) /\ row_label e = label KPublisher m.
Proof.
  exists (y_seen ++ [YEnd 1 0; YFlush 1]), 3, 2000%Z, (y_unreg y_ca y_self (YObj (str "t") (str "100") (YPub y_top))), [YHear 2 1 2500],
    (y_end (y_seen ++ [YEnd 1 0; YFlush 1])), (y_end y_late), 2500%Z, (y_list y_late 2 2500).
  eexists. split; [change (y_run_of y_late (y_end y_late) 2 2500 (y_list y_late 2 2500)); runs|]. split; [vm_compute; reflexivity|]. split; [vm_compute; reflexivity|]. split; [reflexivity|].
  split. { exists y_cb, y_self. split; [eexists; split; [vm_compute; reflexivity|split; reflexivity]|]. right. split; [intros [E _]; discriminate|reflexivity]. }
  split; [repeat constructor|]. split.
  - intros a x c r o P E. pose proof (objs_all (y_end y_late) (fun _ o => negb (eqb (yo_id o) (str "100"))) a x c r o) as H.
    cbv beta in H. rewrite E in H. assert (X : negb (eqb (str "100") (str "100")) = true) by (apply H; [vm_compute; reflexivity|exact P]). discriminate X.
  - split; [vm_compute; left; reflexivity|]. vm_compute. reflexivity.
Qed.
Lemma eye_stale : exists ops s now l t m c r d e, y_run_of ops s 2 now l /\ running s 1 c r /\ handed y_any [] ops 2 t m /\ describes_process c r m /\
  sm_cmd m = announces KProcess /\ (exists c' r', running s 2 c' r' /\ listens c' KProcess m) /\ In (EProcess e) (rows KProcess l) /\ e = (yc_host c, yc_pid c, d) /\ pr_pname d = yc_pname c /\ pr_info d <> pr_info r.
Proof.
  exists y_stale, (y_end y_stale), 1002%Z, (y_list y_stale 2 1002), 1000%Z, (y_proc_reg y_ca y_sick), y_ca, y_sick. do 2 eexists.
  split; [runs|]. split; [eexists; split; [vm_compute; reflexivity|split; reflexivity]|]. split; [|split; [|split; [reflexivity|split]]].
  - apply (hears _ (y_setup ++ [YCollect 1; YState 1 y_sick; YCollect 1]) 2 3 1000%Z [YHear 2 0 1001]); [reflexivity|vm_compute; reflexivity].
  - unfold describes_process, from. cbn. repeat split.
  - exists y_cb, y_self. split; [eexists; split; [vm_compute; reflexivity|split; reflexivity]|]. right. split; [intros [E _]; discriminate|reflexivity].
  - split; [vm_compute; left; reflexivity|]. split; [reflexivity|]. split; [reflexivity|]. vm_compute. discriminate.
Qed.
Lemma eye_twins : exists ops s now l c1 r1 c2 r2 m1 m2, y_run_of ops s 3 now l /\ running s 1 c1 r1 /\ running s 2 c2 r2 /\ yc_host c1 <> yc_host c2 /\
  handed y_any [] ops 3 now m1 /\ describes_process c1 r1 m1 /\ sm_cmd m1 = announces KProcess /\ handed y_any [] ops 3 now m2 /\ describes_process c2 r2 m2 /\ sm_cmd m2 = announces KProcess /\
  (exists c r, running s 3 c r /\ listens c KProcess m1 /\ listens c KProcess m2) /\ (exists e, rows KProcess l = [e]).
Proof.
  exists y_twins, (y_end y_twins), 1000%Z, (y_list y_twins 3 1000), y_c1, y_self, y_c2, y_self, (y_proc_reg y_c1 y_self), (y_proc_reg y_c2 y_self).
  split; [runs|]. split; [eexists; split; [vm_compute; reflexivity|split; reflexivity]|]. split; [eexists; split; [vm_compute; reflexivity|split; reflexivity]|]. split; [discriminate|].
  split; [apply (hears _ (firstn 5 y_twins) 3 0 1000%Z [YHear 3 1 1000]); [reflexivity|vm_compute; reflexivity]|].
  split; [unfold describes_process, from; cbn; repeat split|]. split; [reflexivity|].
  split; [apply (hears _ (firstn 6 y_twins) 3 1 1000%Z []); [reflexivity|vm_compute; reflexivity]|].
  split; [unfold describes_process, from; cbn; repeat split|]. split; [reflexivity|]. split.
  - exists y_c3, y_self. split; [eexists; split; [vm_compute; reflexivity|split; reflexivity]|]. split; right; (split; [intros [E _]; discriminate|reflexivity]).
  - eexists. vm_compute. reflexivity.
Qed.
Lemma eye_mute : exists ops s now l host pid id v, y_run_of ops s 2 now l /\ In (EServer (host, pid, id, v)) (rows KServer l) /\
  (forall a x c r o, in_process s a x c r o -> yc_host c <> host /\ yc_pid c <> pid /\ yo_id o <> id /\ yo_name o <> sv_sname v) /\
  exists a x c r o w, in_process s a x c r o /\ yo_body o = YSrv w /\ yc_v0 c = true /\ sv_port0 w <> 0%Z.
Proof.
  exists y_mute, (y_end y_mute), 1000%Z, (y_list y_mute 2 1000). do 4 eexists. split; [runs|]. split; [vm_compute; left; reflexivity|]. split.
  - intros a x c r o P. pose proof (objs_all (y_end y_mute) (fun c o => negb (is_nil (yc_host c)) && negb (yc_pid c =? 0)%Z && negb (is_nil (yo_id o)) && negb (is_nil (yo_name o)))%bool a x c r o) as H.
    cbv beta in H. rewrite !andb_true_iff, !negb_true_iff, Z.eqb_neq in H.
    destruct H as [[[H1 H2] H3] H4]; [vm_compute; reflexivity|exact P|]. cbn. split; [destruct (yc_host c); discriminate|]. split; [exact H2|]. split; [destruct (yo_id o); discriminate|destruct (yo_name o); discriminate].
  - exists 1, 0, y_ca, y_self. do 2 eexists. split; [eexists; split; [vm_compute; reflexivity|split; [reflexivity|split; [reflexivity|vm_compute; reflexivity]]]|]. split; [reflexivity|]. split; [reflexivity|]. cbn. discriminate.
Qed.
Lemma eye_group : exists ops s now l c1 r1 c2 r2 m o m', y_run_of ops s 2 now l /\ running s 1 c1 r1 /\ running s 2 c2 r2 /\ yc_group c1 = yc_group c2 /\ yc_group c1 <> [] /\
  handed y_any [] ops 2 now m /\ describes_process c1 r1 m /\ sm_cmd m = announces KProcess /\
  in_process s 1 1 c1 r1 o /\ handed y_any [] ops 2 now m' /\ describes c1 r1 o m' /\ sm_cmd m' = announces KServer /\
  rows KProcess l = [] /\ rows KServer l = [] /\ exists e, rows KPublisher l = [e].
Proof.
  exists y_group, (y_end y_group), 1001%Z, (y_list y_group 2 1001), y_g1, y_self, y_g2, y_self, (y_proc_reg y_g1 y_self), (YObj (str "s") (str "200") (YSrv (y_svc 4000 4001))),
    (y_reg y_g1 y_self (YObj (str "s") (str "200") (YSrv (y_svc 4000 4001)))).
  split; [runs|]. split; [eexists; split; [vm_compute; reflexivity|split; reflexivity]|]. split; [eexists; split; [vm_compute; reflexivity|split; reflexivity]|]. split; [reflexivity|]. split; [discriminate|].
  split; [apply (hears _ (firstn 5 y_group) 2 0 1001%Z (skipn 6 y_group)); [reflexivity|vm_compute; reflexivity]|].
  split; [unfold describes_process, from; cbn; repeat split|]. split; [reflexivity|].
  split; [eexists; split; [vm_compute; reflexivity|split; [reflexivity|split; reflexivity]]|].
  split; [apply (hears _ (firstn 7 y_group) 2 2 1001%Z []); [reflexivity|vm_compute; reflexivity]|].
  split; [apply y_reg_tells; intros v E; injection E as <-; split; intros _; discriminate|]. split; [reflexivity|].
  split; [vm_compute; reflexivity|]. split; [vm_compute; reflexivity|]. eexists. vm_compute. reflexivity.
Qed.
