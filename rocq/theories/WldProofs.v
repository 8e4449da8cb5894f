From Coq Require Import Lia Bool Arith.
From Verif Require Import Base Sample ExpMapModel ExpMapProofs ConnModel ConnProofs PbModel PbSpec SerModel SerSpec WrModel WrSpec WrProofs RdModel RdSpec RdProofs RegModel UdpModel UdpSpec UdpProofs TcpModel TcpSpec TcpProofs GateModel GateProofs E2eModel E2eProofs NetModel NetSpec NetProofs WldModel WldSpec.
From Verif Require ShmModel.

(** ** The discovery inside of the world *)
Definition nop_of (o : wdop) (s : world) : option nop :=
  match o with
  | WdNet (NCreate _ _ _ _ _ _) | WdNet (NTouch _ _ _ _) => None
  | WdNet o' => Some o'
  | WdPub p x name id r c =>
      match aget p (nt_procs (wd_net s)), wd_end PubSide p x s with Some _, None => Some (NCreate p PubSide x name id r) | _, _ => None end
  | WdSub q y name id r c =>
      match aget q (nt_procs (wd_net s)), wd_end SubSide q y s with
      | Some _, None => Some (NCreate q SubSide y name id (with_layers (sub_tlayers c rd_new) r))
      | _, _ => None
      end
  | WdTouch p PubSide x r => Some (NTouch p PubSide x r)
  | WdTouch q SubSide y r =>
      match aget y (wq_subs (wd_proc q s)) with
      | Some (c, rd) => Some (NTouch q SubSide y (with_layers (sub_tlayers c rd) r))
      | None => None
      end
  | _ => None
  end.
Definition net_after (o : wdop) (s : world) : net := match nop_of o s with Some o' => next o' (wd_net s) | None => wd_net s end.
Lemma nets_view o s : good (wd_net s) -> wd_nets o s = Some (World (next o (wd_net s)) (wd_procs s) (wd_packets s)).
Proof. intros G. unfold wd_nets. rewrite step_next by exact G. reflexivity. Qed.
Lemma set_net p q s : wd_net (wd_set p q s) = wd_net s. Proof. reflexivity. Qed.
Lemma send_defined c pay time a b d w : exists w' outs, w_run c (wcall_ops (CSend pay time a b d)) w = Some (w', outs).
Proof.
  cbn [wcall_ops w_run w_step]. destruct (w_begin pay time c w) as [w1 o1]. destruct (w_next a w1) as [w2 o2]. destruct (w_next b w2) as [w3 o3].
  destruct (w_next d w3) as [w4 o4]. eauto.
Qed.
Lemma step_defined o s : good (wd_net s) -> exists s' evs, wd_step o s = Some (s', evs) /\ wd_net s' = net_after o s.
Proof.
  intros G. destruct o as [o|p x name id r c|q y name id r c|p sd x r|p x pay time a b d|p x id|q k j|q y o]; unfold net_after, nop_of; cbn [wd_step].
  - destruct o as [p c|p sd x name id r|p sd x r|p x|p sd x|p now|p|p k now]; try (eexists; eexists; split; [reflexivity|reflexivity]).
    all: try (rewrite nets_view by exact G; eexists; eexists; split; [reflexivity|reflexivity]).
    destruct (aget p (nt_procs (wd_net s))); [destruct (nth_error (nt_sent (wd_net s)) k)|]; rewrite nets_view by exact G; eexists; eexists; split; reflexivity.
  - destruct (aget p (nt_procs (wd_net s))); [destruct (wd_end PubSide p x s)|]; try (eexists; eexists; split; reflexivity).
    rewrite nets_view by exact G. eexists; eexists; split; reflexivity.
  - destruct (aget q (nt_procs (wd_net s))); [destruct (wd_end SubSide q y s)|]; try (eexists; eexists; split; reflexivity).
    rewrite nets_view by exact G. eexists; eexists; split; reflexivity.
  - destruct sd; [rewrite nets_view by exact G; eexists; eexists; split; reflexivity|].
    destruct (aget x (wq_subs (wd_proc p s))) as [[c rd]|]; [|eexists; eexists; split; reflexivity].
    rewrite nets_view by exact G; eexists; eexists; split; reflexivity.
  - destruct (wd_end PubSide p x s) as [[c e]|]; [|eexists; eexists; split; reflexivity].
    destruct (aget x (wq_pubs (wd_proc p s))) as [u|]; [|eexists; eexists; split; reflexivity].
    destruct (send_defined (wu_cfg u) pay time a b d (set_conn (wu_w u) (cn_subs (ne_conn e)))) as (w' & outs & E). rewrite E. eexists; eexists; split; reflexivity.
  - destruct (aget x (wq_pubs (wd_proc p s))) as [u|]; [|eexists; eexists; split; reflexivity]. eexists; eexists; split; reflexivity.
  - destruct (aget q (nt_procs (wd_net s))) as [n|]; [|eexists; eexists; split; reflexivity]. destruct (nth_error (wd_packets s) k) as [pk|]; [|eexists; eexists; split; reflexivity].
    cbv zeta. destruct (wq_hear (hf_gate (np_sub n)) j pk (wd_proc q s)) as [w xs]. destruct (give_all (hf_gate (np_sub n)) xs (wq_subs w)) as [l outs].
    eexists; eexists; split; reflexivity.
  - destruct (aget y (wq_subs (wd_proc q s))) as [[c r]|]; [|eexists; eexists; split; reflexivity].
    destruct o; try (eexists; eexists; split; reflexivity); destruct (rd_step c _ r); eexists; eexists; split; reflexivity.
Qed.
Lemma good_after o s : good (wd_net s) -> good (net_after o s).
Proof. intros G. unfold net_after. destruct (nop_of o s); [apply next_good, G|exact G]. Qed.

(** Runs, from the end. *)
Lemma run_app a b : forall s, wd_run (a ++ b) s = match wd_run a s with Some (s1, e1) => match wd_run b s1 with Some (s2, e2) => Some (s2, e1 ++ e2) | None => None end | None => None end.
Proof.
  induction a as [|o a IH]; intros s; cbn [app wd_run]; [destruct (wd_run b s) as [[? ?]|]; reflexivity|].
  destruct (wd_step o s) as [[s1 e1]|]; [|reflexivity]. rewrite IH. destruct (wd_run a s1) as [[s2 e2]|]; [|reflexivity].
  destruct (wd_run b s2) as [[s3 e3]|]; [rewrite app_assoc|]; reflexivity.
Qed.
Lemma runs_snoc ops o s' evs' : runs (ops ++ [o]) s' evs' <-> exists s evs e, runs ops s evs /\ wd_step o s = Some (s', e) /\ evs' = evs ++ e.
Proof.
  unfold runs. rewrite run_app. split.
  - destruct (wd_run ops world0) as [[s evs]|]; [|discriminate]. cbn [wd_run]. destruct (wd_step o s) as [[s1 e]|] eqn:E; [|discriminate].
    intros R. injection R as <- <-. exists s, evs, (e ++ []). rewrite app_nil_r. auto.
  - intros (s & evs & e & -> & E & ->). cbn [wd_run]. rewrite E, app_nil_r. reflexivity.
Qed.
Lemma runs_nil s evs : runs [] s evs -> s = world0 /\ evs = [].
Proof. intros R. injection R as <- <-. auto. Qed.
(** The operations of the discovery. *)
Lemma wf_layers c rd r : wf_topic r -> wf_topic (with_layers (sub_tlayers c rd) r).
Proof.
  unfold wf_topic, with_layers. cbn. intros H. intuition. repeat constructor; cbn; try (unfold i32, u32; lia); try discriminate; auto.
Qed.
Lemma nop_sane o s o' : usual_op o -> nop_of o s = Some o' -> sane_op o'.
Proof.
  intros U. destruct o as [o|p x name id r c|q y name id r c|p sd x r|p x pay time a b d|p x id|q k j|q y o]; cbn [nop_of]; try discriminate.
  - destruct o as [p c|p sd x name id r|p sd x r|p x|p sd x|p now|p|p k now]; intros E; try discriminate; injection E as <-; cbn in *; tauto.
  - destruct (aget p (nt_procs (wd_net s))); [|discriminate]. destruct (wd_end PubSide p x s); [discriminate|]. intros E. injection E as <-. cbn in *. tauto.
  - destruct (aget q (nt_procs (wd_net s))); [|discriminate]. destruct (wd_end SubSide q y s); [discriminate|]. intros E. injection E as <-. cbn in *. apply wf_layers, U.
  - destruct sd; [intros E; injection E as <-; exact U|]. destruct (aget x (wq_subs (wd_proc p s))) as [[c rd]|]; [|discriminate]. intros E. injection E as <-. cbn. apply wf_layers, U.
Qed.
Lemma world_net ops s evs : runs ops s evs -> exists nops, wd_net s = at_end nops /\ (Forall usual_op ops -> sane nops).
Proof.
  revert s evs. induction ops as [|o ops IH] using rev_ind; intros s' evs' R.
  - apply runs_nil in R. destruct R as [-> ->]. exists []. split; [reflexivity|]. intros _. constructor.
  - apply runs_snoc in R. destruct R as (s & evs & e & R & E & ->). destruct (IH _ _ R) as (nops & N & S1).
    assert (G : good (wd_net s)) by (rewrite N; apply at_end_good).
    destruct (step_defined o s G) as (s2 & e2 & E2 & N2). rewrite E in E2. injection E2 as <- <-. unfold net_after in N2.
    destruct (nop_of o s) as [o'|] eqn:NO.
    + exists (nops ++ [o']). split; [rewrite N2, N, at_end_snoc; reflexivity|]. intros F. apply Forall_app in F. destruct F as [F1 F2].
      apply sane_app. split; [auto|]. constructor; [|constructor]. apply (nop_sane o s); [|exact NO]. inversion F2; assumption.
    + exists nops. split; [congruence|]. intros F. apply Forall_app in F. tauto.
Qed.
Lemma runs_good ops s evs : runs ops s evs -> good (wd_net s).
Proof. intros R. destruct (world_net _ _ _ R) as (nops & -> & _). apply at_end_good. Qed.
Lemma defined_world ops : exists s evs, runs ops s evs.
Proof.
  induction ops as [|o ops (s & evs & R)] using rev_ind; [exists world0, []; reflexivity|].
  destruct (step_defined o s (runs_good _ _ _ R)) as (s' & e & E & _). exists s', (evs ++ e). apply runs_snoc. eauto 8.
Qed.
Lemma step_net o s s' evs : good (wd_net s) -> wd_step o s = Some (s', evs) -> wd_net s' = net_after o s.
Proof. intros G E. destruct (step_defined o s G) as (s2 & e2 & E2 & N2). congruence. Qed.
Lemma runs_fun ops s evs s' evs' : runs ops s evs -> runs ops s' evs' -> s' = s /\ evs' = evs.
Proof. unfold runs. intros -> E. injection E as <- <-. auto. Qed.

(** ** Writers *)
Lemma proc_set p q s p' : wd_proc p' (wd_set p q s) = if Nat.eqb p p' then q else wd_proc p' s.
Proof.
  unfold wd_proc, wd_set. cbn. rewrite aget_aset. destruct (Nat.eqb p p') eqn:E.
  - apply Nat.eqb_eq in E. subst. rewrite eqb_refl. reflexivity.
  - apply Nat.eqb_neq in E. rewrite neq_eqb by congruence. reflexivity.
Qed.
Lemma end_here sd p x s c e : wd_end sd p x s = Some (c, e) <-> here (wd_net s) p sd x c e.
Proof.
  unfold wd_end, here. destruct (aget p (nt_procs (wd_net s))) as [q|].
  - destruct (aget x (hf_ends (np_half sd q))) as [e'|] eqn:E.
    + split; [intros X; injection X as <- <-; eauto|]. intros (q' & Q & <- & E'). injection Q as <-. congruence.
    + split; [discriminate|]. intros (q' & Q & _ & E'). injection Q as <-. congruence.
  - split; [discriminate|]. intros (q' & Q & _). discriminate.
Qed.
Lemma range_apply i d ly x R : NoDup R -> forall l, aget x (fold_left wu_apply (map GP (map (fun w => PSub w i d ly) R)) l) =
  match aget x l with Some u => Some (if mem R x then WPub (wu_cfg u) (wr_start (wu_cfg u) i ly (wu_w u)) else u) | None => None end.
Proof.
  induction 1 as [|y R NI ND IH]; intros l; cbn [map fold_left wu_apply]; [cbn; destruct (aget x l); reflexivity|].
  assert (MX : mem (y :: R) x = (Nat.eqb x y || mem R x)%bool) by reflexivity. rewrite MX.
  destruct (aget y l) as [u|] eqn:Y; rewrite IH.
  - rewrite aget_aset. destruct (Nat.eqb x y) eqn:E.
    + apply Nat.eqb_eq in E. subst y. rewrite eqb_refl, Y. cbn [orb]. assert (M : mem R x = false).
      { destruct (mem R x) eqn:M; [|reflexivity]. apply mem_in in M. contradiction. }
      rewrite M. reflexivity.
    + apply Nat.eqb_neq in E. rewrite neq_eqb by congruence. reflexivity.
  - destruct (aget x l) as [u|] eqn:X; [|reflexivity]. destruct (Nat.eqb x y) eqn:E; [|reflexivity]. apply Nat.eqb_eq in E. congruence.
Qed.
Lemma quiet_apply calls : (forall x i d ly, ~ In (GP (PSub x i d ly)) calls) -> forall l, fold_left wu_apply calls l = l.
Proof.
  induction calls as [|g calls IH]; intros N l; cbn; [reflexivity|].
  assert (E : wu_apply l g = l). { destruct g as [[x i d ly|x i]|g]; cbn; try reflexivity. destruct (N x i d ly). now left. }
  rewrite E. apply IH. intros x i d ly I1. apply (N x i d ly). now right.
Qed.
Definition starts (c : option (NetProofs.wcall)) (u : wpub) : wpub :=
  match c with Some (WApply _ k v) => WPub (wu_cfg u) (wr_start (wu_cfg u) k (snd v) (wu_w u)) | _ => u end.
Lemma heard_view k now sent p q m x l : pgood q -> nth_error sent k = Some m ->
  aget x (fold_left wu_apply (np_heard (datagram reg_sample (ser_sample m)) q) l) =
  match aget x l with
  | Some u => Some (match aget x (hf_ends (np_pub q)) with Some e => starts (cause (NDeliver p k now) sent p (np_cfg q) PubSide e) u | None => u end)
  | None => None
  end.
Proof.
  intros PG N. pose proof (pg_half _ PG PubSide) as GP0. cbn in GP0.
  assert (H : np_heard (datagram reg_sample (ser_sample m)) q = match de_sample (ser_sample m) with
    | Ok m' => arrive (np_applier q) (nc_host (np_cfg q)) m' (hf_gate (np_pub q)) (hf_gate (np_sub q)) | _ => [] end).
  { unfold np_heard, rx_step. rewrite (pg_rx _ PG), reg_receive. reflexivity. }
  rewrite H. clear H. cbn [cause]. rewrite Nat.eqb_refl, N. destruct (de_sample (ser_sample m)) as [m'| |].
  2,3: cbn [fold_left]; destruct (aget x l); [|reflexivity]; destruct (aget x (hf_ends (np_pub q))); reflexivity.
  assert (QU : (forall y i d ly, ~ In (GP (PSub y i d ly)) (arrive (np_applier q) (nc_host (np_cfg q)) m' (hf_gate (np_pub q)) (hf_gate (np_sub q)))) ->
    (forall t i v, effect (np_cfg q) PubSide now m' <> Some (WApply t i v)) ->
    aget x (fold_left wu_apply (arrive (np_applier q) (nc_host (np_cfg q)) m' (hf_gate (np_pub q)) (hf_gate (np_sub q))) l) =
    match aget x l with
    | Some u => Some (match aget x (hf_ends (np_pub q)) with Some e => starts (if eqb (ne_name e) (tp_tname (sm_topic m')) then effect (np_cfg q) PubSide now m' else None) u | None => u end)
    | None => None end).
  { intros A B. rewrite quiet_apply by exact A. destruct (aget x l) as [u|]; [|reflexivity]. f_equal. destruct (aget x (hf_ends (np_pub q))) as [e|]; [|reflexivity].
    destruct (eqb (ne_name e) (tp_tname (sm_topic m'))); [|reflexivity]. unfold starts. destruct (effect (np_cfg q) PubSide now m') as [[t i v|i|t]|]; try reflexivity.
    destruct (B t i v). reflexivity. }
  unfold arrive, np_applier, ap_apply in *. unfold effect in *.
  destruct (ap_accept (ap_new (nc_network (np_cfg q)) (nc_loopback (np_cfg q)) (nc_group (np_cfg q)) (nc_pid (np_cfg q))) m') eqn:AC; cbn [negb fst andb] in *.
  2: { apply QU; [intros ? ? ? ? []|discriminate]. }
  unfold gates, gates_apply in *.
  assert (GN : forall (cs : list scall) y i d ly, ~ In (GP (PSub y i d ly)) (map GS cs)).
  { intros cs y i d ly I1. apply in_map_iff in I1. destruct I1 as (z & E & _). discriminate. }
  destruct (sm_cmd m') eqn:CM.
  all: try (apply QU; [first [intros ? ? ? ? []|apply GN]|destruct (negb (is_nil (tp_tname (sm_topic m')))); discriminate]).
  - clear QU. unfold pg_sub. rewrite (gate_on _ _ GP0). cbn [negb orb]. destruct (is_nil (tp_tname (sm_topic m'))) eqn:NI; cbn [negb].
    { cbn [map fold_left]. destruct (aget x l); [|reflexivity]. destruct (aget x (hf_ends (np_pub q))) as [e|]; [|reflexivity]. destruct (eqb _ _); reflexivity. }
    rewrite range_apply by apply (nodup_range _ _ _ GP0). rewrite (range_spec _ _ _ _ GP0). destruct (aget x l) as [u|]; [|reflexivity]. f_equal.
    unfold reacts. destruct (aget x (hf_ends (np_pub q))) as [e|]; [|reflexivity]. destruct (eqb (ne_name e) (tp_tname (sm_topic m'))); reflexivity.
  - apply QU; [|destruct (negb (is_nil (tp_tname (sm_topic m')))); discriminate]. unfold pg_unsub. destruct (_ || _)%bool; [intros ? ? ? ? []|].
    intros y i d ly I1. rewrite map_map in I1. apply in_map_iff in I1. destruct I1 as (z & E & _). discriminate.
Qed.
Lemma pubs_set l q : wq_pubs (set_pubs l q) = l. Proof. reflexivity. Qed.
Inductive pub_move (o : wdop) (s : world) (p x : nat) : wpub -> Prop :=
| pm_same u : aget x (wq_pubs (wd_proc p s)) = Some u ->
    (forall c e o' t k v, here (wd_net s) p PubSide x c e -> nop_of o s = Some o' -> cause o' (nt_sent (wd_net s)) p c PubSide e <> Some (WApply t k v)) ->
    pub_move o s p x u
| pm_heard u c e o' t k v : aget x (wq_pubs (wd_proc p s)) = Some u -> here (wd_net s) p PubSide x c e -> nop_of o s = Some o' ->
    cause o' (nt_sent (wd_net s)) p c PubSide e = Some (WApply t k v) -> pub_move o s p x (WPub (wu_cfg u) (wr_start (wu_cfg u) k (snd v) (wu_w u)))
| pm_new name id r c q : o = WdPub p x name id r c -> aget p (nt_procs (wd_net s)) = Some q -> wd_end PubSide p x s = None ->
    pub_move o s p x (WPub (with_host (nc_host (np_cfg q)) c) (w_new c))
| pm_sent u pay time a b d c e w outs : o = WdSend p x pay time a b d -> aget x (wq_pubs (wd_proc p s)) = Some u -> here (wd_net s) p PubSide x c e ->
    w_run (wu_cfg u) (wcall_ops (CSend pay time a b d)) (set_conn (wu_w u) (cn_subs (ne_conn e))) = Some (w, outs) -> pub_move o s p x (WPub (wu_cfg u) w)
| pm_id u id w out : o = WdSetID p x id -> aget x (wq_pubs (wd_proc p s)) = Some u -> w_step (wu_cfg u) (OSetID id) (wu_w u) = Some (w, out) -> pub_move o s p x (WPub (wu_cfg u) w).
Lemma cause_none o sent p c sd e t k v : (forall p' k' now, o <> NDeliver p' k' now) -> cause o sent p c sd e <> Some (WApply t k v).
Proof. intros N. destruct o; cbn; try discriminate. - destruct (Nat.eqb _ _); discriminate. - destruct (N p0 k0 now). reflexivity. Qed.
Ltac keep := apply pm_same; [assumption|let c := fresh in let e := fresh in intros c e ? ? ? ? ?; cbn [nop_of]; let E := fresh in intros E; try discriminate E; try (injection E as <-; apply cause_none; discriminate)].
Lemma pub_back o s s' evs p x u' : good (wd_net s) -> wd_step o s = Some (s', evs) -> aget x (wq_pubs (wd_proc p s')) = Some u' -> pub_move o s p x u'.
Proof.
  intros G E A. destruct o as [o|p1 x1 name id r c|q y name id r c|p1 sd x1 r|p1 x1 pay time a b d|p1 x1 id|q k j|q y o]; cbn [wd_step] in E.
  - destruct o as [p1 c|p1 sd x1 name id r|p1 sd x1 r|p1 x1|p1 sd x1|p1 now|p1|p1 k now].
    all: try (rewrite nets_view in E by exact G; injection E as <- <-; cbn in A; try (change (wd_proc p _) with (wd_proc p s) in A)).
    all: try (injection E as <- <-).
    all: try (keep; fail).
    + change (wd_proc p _) with (wd_proc p (wd_set p1 (match sd with PubSide => set_pubs (adel x1 (wq_pubs (wd_proc p1 s))) (wd_proc p1 s) | SubSide => set_subs (adel x1 (wq_subs (wd_proc p1 s))) (wd_proc p1 s) end) s)) in A.
      rewrite proc_set in A. destruct (Nat.eqb p1 p) eqn:P; [apply Nat.eqb_eq in P; subst p1|keep].
      destruct sd; cbn in A; [|keep]. rewrite aget_adel in A. destruct (eqb x x1); [discriminate|keep].
    + destruct (aget p1 (nt_procs (wd_net s))) as [q|] eqn:Q; [destruct (nth_error (nt_sent (wd_net s)) k) as [m|] eqn:M|].
      2,3: rewrite nets_view in E by exact G; injection E as <- <-; change (wd_proc p _) with (wd_proc p s) in A; apply pm_same; [exact A|];
        intros c e o' t i v (q' & Q' & _ & _) NO; cbn [nop_of] in NO; injection NO as <-; cbn [cause];
        destruct (Nat.eqb p1 p) eqn:P; [apply Nat.eqb_eq in P; subst; rewrite ?M; congruence|discriminate].
      rewrite nets_view in E by exact G. injection E as <- <-.
      set (l := fold_left _ _ _) in A. change (wd_proc p _) with (wd_proc p (wd_set p1 (set_pubs l (wd_proc p1 s)) s)) in A. rewrite proc_set in A.
      destruct (Nat.eqb p1 p) eqn:P.
      2: { apply pm_same; [exact A|]. intros c e o' t i v _ NO. cbn [nop_of] in NO. injection NO as <-. cbn [cause]. rewrite P. discriminate. }
      apply Nat.eqb_eq in P. subst p1. cbn in A. unfold l in A.
      rewrite (heard_view k now (nt_sent (wd_net s)) p q m x (wq_pubs (wd_proc p s)) (G p q Q) M) in A.
      destruct (aget x (wq_pubs (wd_proc p s))) as [u|] eqn:U; [|discriminate].
      match type of A with Some ?z = _ => assert (u' = z) as -> by congruence end. clear A.
      assert (NH : aget x (hf_ends (np_pub q)) = None -> pub_move (WdNet (NDeliver p k now)) s p x u).
      { intros N. apply pm_same; [exact U|]. intros c e o' t i v (q' & Q' & _ & X) _. rewrite Q in Q'. injection Q' as <-. cbn in X. congruence. }
      destruct (aget x (hf_ends (np_pub q))) as [e|] eqn:X; [clear NH|apply NH; reflexivity].
      assert (H : here (wd_net s) p PubSide x (np_cfg q) e) by (exists q; auto).
      assert (SM : (forall t i v, cause (NDeliver p k now) (nt_sent (wd_net s)) p (np_cfg q) PubSide e <> Some (WApply t i v)) -> pub_move (WdNet (NDeliver p k now)) s p x u).
      { intros N. apply pm_same; [exact U|]. intros c e' o' t i v (q' & Q' & <- & X') NO. rewrite Q in Q'. injection Q' as <-. cbn in X'. rewrite X in X'. injection X' as <-.
        cbn [nop_of] in NO. injection NO as <-. apply N. }
      destruct (cause (NDeliver p k now) (nt_sent (wd_net s)) p (np_cfg q) PubSide e) as [[t i v|i|t]|] eqn:C; cbn [starts]; [|apply SM; discriminate..].
      eapply pm_heard; eauto. reflexivity.
  - destruct (aget p1 (nt_procs (wd_net s))) as [q|] eqn:Q; [destruct (wd_end PubSide p1 x1 s) eqn:W|].
    + injection E as <- <-. apply pm_same; [exact A|]. intros c' e' o' t k v _. cbn [nop_of]. rewrite Q, W. discriminate.
    + rewrite nets_view in E by exact G. injection E as <- <-.
      set (w := set_pubs _ _) in A. change (wd_proc p _) with (wd_proc p (wd_set p1 w s)) in A. rewrite proc_set in A.
      assert (KE : aget x (wq_pubs (wd_proc p s)) = Some u' -> pub_move (WdPub p1 x1 name id r c) s p x u').
      { intros A'. apply pm_same; [exact A'|]. intros c' e' o' t k v _. cbn [nop_of]. rewrite Q, W. intros NO. injection NO as <-. apply cause_none. discriminate. }
      destruct (Nat.eqb p1 p) eqn:P; [apply Nat.eqb_eq in P; subst p1|apply KE, A]. unfold w in A. cbn in A. rewrite aget_aset in A.
      destruct (eqb x x1) eqn:X; [|apply KE, A]. apply eqb_true in X. subst x1. injection A as <-. eapply pm_new; eauto.
    + injection E as <- <-. apply pm_same; [exact A|]. intros c' e' o' t k v _. cbn [nop_of]. rewrite Q. discriminate.
  - destruct (aget q (nt_procs (wd_net s))) as [n|] eqn:Q; [destruct (wd_end SubSide q y s) eqn:W|].
    1,3: injection E as <- <-; apply pm_same; [exact A|]; intros c' e' o' t k v _; cbn [nop_of]; rewrite Q, ?W; discriminate.
    rewrite nets_view in E by exact G. injection E as <- <-.
    set (w := set_subs _ _) in A. change (wd_proc p _) with (wd_proc p (wd_set q w s)) in A. rewrite proc_set in A.
    assert (A' : aget x (wq_pubs (wd_proc p s)) = Some u') by (destruct (Nat.eqb q p) eqn:P; [apply Nat.eqb_eq in P; subst q|]; exact A).
    apply pm_same; [exact A'|]. intros c' e' o' t k v _. cbn [nop_of]. rewrite Q, W. intros NO. injection NO as <-. apply cause_none. discriminate.
  - destruct sd.
    + rewrite nets_view in E by exact G. injection E as <- <-. change (wd_proc p _) with (wd_proc p s) in A. keep.
    + destruct (aget x1 (wq_subs (wd_proc p1 s))) as [[c rd]|] eqn:W.
      * rewrite nets_view in E by exact G. injection E as <- <-. change (wd_proc p _) with (wd_proc p s) in A. apply pm_same; [exact A|].
        intros c' e' o' t k v _. cbn [nop_of]. rewrite W. intros NO. injection NO as <-. apply cause_none. discriminate.
      * injection E as <- <-. apply pm_same; [exact A|]. intros c' e' o' t k v _. cbn [nop_of]. rewrite W. discriminate.
  - destruct (wd_end PubSide p1 x1 s) as [[c e]|] eqn:W; [|injection E as <- <-; keep].
    destruct (aget x1 (wq_pubs (wd_proc p1 s))) as [u|] eqn:U; [|injection E as <- <-; keep].
    destruct (w_run _ _ _) as [[w outs]|] eqn:WR; [|discriminate]. injection E as <- <-.
    set (q := set_pubs _ _) in A. change (wd_proc p _) with (wd_proc p (wd_set p1 q s)) in A. rewrite proc_set in A.
    destruct (Nat.eqb p1 p) eqn:P; [apply Nat.eqb_eq in P; subst p1|keep]. unfold q in A. cbn in A. rewrite aget_aset in A.
    destruct (eqb x x1) eqn:X; [|keep]. apply eqb_true in X. subst x1. injection A as <-. apply end_here in W. eapply pm_sent; eauto.
  - destruct (aget x1 (wq_pubs (wd_proc p1 s))) as [u|] eqn:U; [|injection E as <- <-; keep].
    destruct (w_step _ _ _) as [[w out]|] eqn:WS; [|discriminate]. injection E as <- <-. rewrite proc_set in A.
    destruct (Nat.eqb p1 p) eqn:P; [apply Nat.eqb_eq in P; subst p1|keep]. cbn in A. rewrite aget_aset in A.
    destruct (eqb x x1) eqn:X; [|keep]. apply eqb_true in X. subst x1. injection A as <-. eapply pm_id; eauto.
  - destruct (aget q (nt_procs (wd_net s))) as [n|]; [|injection E as <- <-; keep]. destruct (nth_error (wd_packets s) k) as [pk|]; [|injection E as <- <-; keep].
    cbv zeta in E. destruct (wq_hear (hf_gate (np_sub n)) j pk (wd_proc q s)) as [w xs] eqn:H. destruct (give_all (hf_gate (np_sub n)) xs (wq_subs w)) as [l outs].
    injection E as <- <-. rewrite proc_set in A. destruct (Nat.eqb q p) eqn:P; [apply Nat.eqb_eq in P; subst q|keep]. cbn in A.
    assert (WE : wq_pubs w = wq_pubs (wd_proc p s)).
    { destruct pk; cbn [wq_hear] in H; [destruct (rx_step _ _ _)|destruct (tcp_receive _ _)|]; injection H as <- <-; reflexivity. }
    rewrite WE in A. keep.
  - destruct (aget y (wq_subs (wd_proc q s))) as [[c r]|]; [|injection E as <- <-; keep].
    assert (Z : s' = s \/ exists l, s' = wd_set q (set_subs l (wd_proc q s)) s).
    { destruct o; try (injection E as <- <-; left; reflexivity); (destruct (rd_step c _ r); injection E as <- <-; right; eexists; reflexivity). }
    destruct Z as [->|(l & ->)]; [keep|]. rewrite proc_set in A. destruct (Nat.eqb q p) eqn:P; [apply Nat.eqb_eq in P; subst q|]; keep.
Qed.

(** ** The layers of a writer *)
Definition flag (w : writer) (l : ltype) : bool := match l with tl_udp => w_udp w | tl_shm => w_shm w | tl_tcp => w_tcp w | _ => false end.
Lemma uses_flag u l : uses u l <-> flag (wu_w u) l = true.
Proof.
  unfold uses, WrSpec.layers_of, flag. rewrite !in_app_iff. destruct (w_shm (wu_w u)) eqn:A, (w_udp (wu_w u)) eqn:B, (w_tcp (wu_w u)) eqn:C, l; cbn; split; intros; try discriminate; intuition (try discriminate; auto).
Qed.
Lemma start_flag c k ly w l : flag (wr_start c k ly w) l = true <-> flag w l = true \/ best_layer c k ly l.
Proof.
  assert (N : forall l', l' = tl_none \/ l' = tl_all -> ~ best_layer c k ly l').
  { intros l' O (a & b & _ & CM & _). unfold common in CM. destruct O as [-> | ->]; intuition discriminate. }
  assert (D : forall l', l' <> tl_none -> eqb (determine_layer c (pub_layers c) (sub_layers ly) (eqb (wc_host c) (si_host k))) l' = true <-> best_layer c k ly l').
  { intros l' NN. rewrite <- (determine_lemma c k ly l' NN). split; [intros E; apply eqb_true in E; exact E|intros ->; apply eqb_refl]. }
  destruct l; cbn [flag wr_start w_udp w_shm w_tcp]; rewrite ?orb_true_iff, ?D by discriminate; try tauto.
  - split; [discriminate|]. intros [E|E]; [discriminate|]. destruct (N _ (or_introl eq_refl) E).
  - split; [discriminate|]. intros [E|E]; [discriminate|]. destruct (N _ (or_intror eq_refl) E).
Qed.
(** A whole send of a writer that is not sending. *)
Lemma subs_conn c : em_contents (cn_map (cn_subs c)) = [] <-> em_contents (cn_map c) = [].
Proof. unfold cn_subs, em_contents. cbn. destruct (e_map (cn_map c)); cbn; split; easy. Qed.
Lemma send_view u e pay time a b d : w_pend (wu_w u) = None ->
  exists w, w_run (wu_cfg u) (wcall_ops (CSend pay time a b d)) (set_conn (wu_w u) (cn_subs (ne_conn e))) =
    Some (w, if match em_contents (cn_map (ne_conn e)) with [] => true | _ => false end then [WRet (length pay)]
             else map (fun l => WTx (Tx l (w_user_id (wu_w u)) (w_clock (wu_w u) + 1)%Z time (snd_hash (wc_tid_hash (wu_cfg u)) (w_clock (wu_w u) + 1)%Z) (length pay) (Some pay)))
                      (WrSpec.layers_of (wu_w u)) ++
                  [WRet (if (w_shm (wu_w u) && a) || (w_udp (wu_w u) && b) || (w_tcp (wu_w u) && d) then length pay else 0)]) /\
    w_pend w = None /\ w_clock w = (w_clock (wu_w u) + 1)%Z /\ w_user_id w = w_user_id (wu_w u) /\ forall l, flag w l = flag (wu_w u) l.
Proof.
  intros P. set (w0 := set_conn (wu_w u) (cn_subs (ne_conn e))). assert (P0 : w_pend w0 = None) by exact P.
  destruct (em_contents (cn_map (ne_conn e))) as [|y ys] eqn:C.
  - assert (NS : ~ subscribed w0) by (unfold subscribed, w0, set_conn; cbn [w_conn]; intros H; apply H, subs_conn, C).
    destruct (refresh_lemma (wu_cfg u) w0 pay time a b d P0 NS) as (w & R & A1 & A2 & A3 & _ & A5 & A6 & A7). exists w. split; [exact R|].
    repeat (split; [assumption|]). intros l. destruct l; cbn [flag]; auto.
  - assert (SB : subscribed w0) by (unfold subscribed, w0, set_conn; cbn [w_conn]; rewrite subs_conn, C; discriminate).
    destruct (send_lemma (wu_cfg u) w0 pay time a b d P0 SB) as (w & R & A1 & A2 & A3 & _ & A5 & A6 & A7). exists w. split; [exact R|].
    repeat (split; [assumption|]). intros l. destruct l; cbn [flag]; auto.
Qed.
Lemma idle ops s evs p x u : runs ops s evs -> aget x (wq_pubs (wd_proc p s)) = Some u -> w_pend (wu_w u) = None.
Proof.
  revert s evs u. induction ops as [|o ops IH] using rev_ind; intros s' evs' u' R A.
  - apply runs_nil in R. destruct R as [-> ->]. discriminate.
  - apply runs_snoc in R. destruct R as (s & evs & e & R & E & ->). pose proof (pub_back _ _ _ _ _ _ _ (runs_good _ _ _ R) E A) as M.
    inversion M as [u U _|u c e0 o' t k v U H NO C|name id r c q EO Q W|u pay time a b d c e0 w outs EO U H WR|u id w out EO U WS]; subst.
    + eauto.
    + cbn. eauto.
    + reflexivity.
    + destruct (send_view u e0 pay time a b d (IH _ _ _ R U)) as (w1 & WR1 & P1 & _). cbn [wu_w]. congruence.
    + cbn in WS. injection WS as <- _. cbn. eauto.
Qed.
Lemma here_net o s s' evs p sd x c e' : good (wd_net s) -> wd_step o s = Some (s', evs) -> here (wd_net s') p sd x c e' ->
  (exists e, here (wd_net s) p sd x c e /\ ne_name e' = ne_name e /\ ne_id e' = ne_id e /\
     ((nop_of o s = None /\ e' = e) \/ exists o', nop_of o s = Some o' /\ moved o' (nt_sent (wd_net s)) p c sd x e e')) \/
  (exists name id r, nop_of o s = Some (NCreate p sd x name id r) /\ e' = NEnd name id r (conn_new (nc_timeout c)) /\
     exists q, aget p (nt_procs (wd_net s)) = Some q /\ np_cfg q = c).
Proof.
  intros G E H. rewrite (step_net _ _ _ _ G E) in H. unfold net_after in H. destruct (nop_of o s) as [o'|] eqn:NO.
  - apply here_back in H; [|exact G]. destruct H as [(e & H & M)|(name & id & r & -> & -> & H)].
    + left. exists e. destruct M as (M1 & M2 & M3). repeat (split; [assumption|]). right. exists o'. split; [reflexivity|]. split; auto.
    + right. eauto 8.
  - left. exists e'. auto 8.
Qed.
(** Creating resets both sides, so a writer and its table grow together. *)
Lemma started_lemma ops s evs p x c e u : runs ops s evs -> publisher s p x c e u ->
  exists os, story (nc_timeout c) os (ne_conn e) /\ forall t k v l, In (WApply t k v) os -> layer_for u k v l -> uses u l.
Proof.
  revert s evs e u. induction ops as [|o ops IH] using rev_ind; intros s' evs' e' u' R [H A].
  - apply runs_nil in R. destruct R as [-> ->]. discriminate.
  - apply runs_snoc in R. destruct R as (s & evs & ev & R & E & ->). pose proof (runs_good _ _ _ R) as G. pose proof (pub_back _ _ _ _ _ _ _ G E A) as M.
    destruct (here_net _ _ _ _ _ _ _ _ _ G E H) as [(e & HE & NN & NI & MV)|(name & id & r & NO & -> & _)].
    2: { exists []. split; [reflexivity|]. intros ? ? ? ? []. }
    assert (OLD : forall u, aget x (wq_pubs (wd_proc p s)) = Some u -> wu_cfg u' = wu_cfg u -> (forall l, flag (wu_w u) l = true -> flag (wu_w u') l = true) ->
      (forall o' t k v, nop_of o s = Some o' -> cause o' (nt_sent (wd_net s)) p c PubSide e = Some (WApply t k v) -> forall l, layer_for u' k v l -> uses u' l) ->
      exists os, story (nc_timeout c) os (ne_conn e') /\ forall t k v l, In (WApply t k v) os -> layer_for u' k v l -> uses u' l).
    { intros u U CF FL NEW. destruct (IH _ _ _ _ R (conj HE U)) as (os & ST & SL).
      assert (OLD : forall t k v l, In (WApply t k v) os -> layer_for u' k v l -> uses u' l).
      { intros t k v l I1 L. apply uses_flag, FL, uses_flag. apply (SL t k v l I1). unfold layer_for in *. congruence. }
      destruct MV as [(NO & ->)|(o' & NO & MV)]; [exists os; auto|].
      destruct (story_step _ _ _ _ _ _ _ _ _ _ ST MV) as (os' & ST' & CA & _). exists (os ++ os'). split; [exact ST'|].
      intros t k v l I1 L. apply in_app_or in I1. destruct I1 as [I1|I1]; [exact (OLD _ _ _ _ I1 L)|]. apply CA in I1. exact (NEW o' t k v NO I1 l L). }
    inversion M as [u U NA|u c0 e0 o' t k v U H0 NO C|name id r c0 q EO Q W|u pay time a b d c0 e0 w outs EO U H0 WR|u id w out EO U WS]; subst.
    + apply (OLD _ U eq_refl (fun l F => F)). intros o' t k v NO C. destruct (NA _ _ _ _ _ _ HE NO C).
    + apply (OLD _ U eq_refl).
      * intros l F. cbn [wu_w]. apply start_flag. auto.
      * intros o2 t2 k2 v2 NO2 C2 l L. assert (o2 = o') as -> by congruence.
        assert (c0 = c /\ e0 = e) as [-> ->]. { apply end_here in H0. apply end_here in HE. rewrite HE in H0. injection H0 as -> ->. auto. }
        assert (k2 = k /\ v2 = v) as [-> ->] by (rewrite C in C2; injection C2; auto).
        apply uses_flag. cbn [wu_w]. apply start_flag. right. exact L.
    + apply end_here in HE. congruence.
    + destruct (send_view u e0 pay time a b d (idle _ _ _ _ _ _ R U)) as (w1 & WR1 & _ & _ & _ & F). rewrite WR in WR1. injection WR1 as <- _.
      apply (OLD _ U eq_refl); [intros l; cbn [wu_w]; rewrite F; auto|]. discriminate.
    + cbn in WS. injection WS as <- _. apply (OLD _ U eq_refl); [intros l; destruct l; cbn; auto|]. discriminate.
Qed.
Lemma layer_started ops s evs p x c e u k v l : runs ops s evs -> publisher s p x c e u -> lists e k v -> layer_for u k v l -> uses u l.
Proof.
  intros R P L F. destruct (started_lemma _ _ _ _ _ _ _ _ R P) as (os & ST & SL). destruct (story_run _ _ _ ST) as (RU & IV & _).
  unfold lists in L. apply contents_find in L; [|exact IV]. destruct (origin _ _ _ _ _ RU L) as (h1 & t & h2 & -> & _).
  apply (SL t k v l); [apply in_or_app; right; now left|exact F].
Qed.
Lemma applied_listed T os t k v c : story T (os ++ [WApply t k v]) c -> In (k, v) (em_contents (cn_map c)).
Proof.
  intros ST. destruct (story_run _ _ _ ST) as (RU & IV & _). apply contents_find; [exact IV|].
  rewrite map_app, em_run_app in RU. destruct (em_run nval0 (map mop os) (em_new T)) as [m|]; [|discriminate]. cbn [map mop em_run em_step] in RU.
  unfold em_index in RU. unfold em_find. destruct (aget k (e_map m)) as [en|].
  - destruct (em_update_timestamp t k m) as [m1|]; [|discriminate]. injection RU as <-. cbn [e_map]. rewrite aget_aset_same. reflexivity.
  - injection RU as <-. cbn [e_map]. rewrite aget_aset_same. reflexivity.
Qed.
Lemma layer_reason ops s evs p x c e u l : runs ops s evs -> publisher s p x c e u -> uses u l ->
  exists a b s1 evs1 e1 u1 k v, ops = a ++ b /\ runs a s1 evs1 /\ publisher s1 p x c e1 u1 /\ ne_name e1 = ne_name e /\ ne_id e1 = ne_id e /\
    lists e1 k v /\ layer_for u1 k v l.
Proof.
  revert s evs e u. induction ops as [|o ops IH] using rev_ind; intros s' evs' e' u' R P US.
  - apply runs_nil in R. destruct R as [-> ->]. destruct P as [_ P]. discriminate.
  - pose proof R as R'. apply runs_snoc in R. destruct R as (s & evs & ev & R & E & ->). pose proof (runs_good _ _ _ R) as G. pose proof P as [H A]. pose proof (pub_back _ _ _ _ _ _ _ G E A) as M.
    destruct (here_net _ _ _ _ _ _ _ _ _ G E H) as [(e & HE & NN & NI & MV)|(name & id & r & NO & -> & (q1 & Q1 & C1))].
    + assert (OLD : forall u, aget x (wq_pubs (wd_proc p s)) = Some u -> uses u l ->
        exists a b s1 evs1 e1 u1 k v, ops ++ [o] = a ++ b /\ runs a s1 evs1 /\ publisher s1 p x c e1 u1 /\ ne_name e1 = ne_name e' /\ ne_id e1 = ne_id e' /\
          lists e1 k v /\ layer_for u1 k v l).
      { intros u U UL. destruct (IH _ _ _ _ R (conj HE U) UL) as (a & b & s1 & evs1 & e1 & u1 & k & v & -> & H1 & H2 & H3 & H4 & H5).
        exists a, (b ++ [o]), s1, evs1, e1, u1, k, v. rewrite <- app_assoc, NN, NI. auto 8. }
      inversion M as [u U NA|u c0 e0 o' t k v U H0 NO C|name id r c0 q EO Q W|u pay time a b d c0 e0 w outs EO U H0 WR|u id w out EO U WS]; subst.
      * apply (OLD _ U US).
      * apply uses_flag in US. cbn [wu_w] in US. apply start_flag in US. destruct US as [US|US]; [apply (OLD _ U), uses_flag, US|].
        exists (ops ++ [o]), [], s', (evs ++ ev), e', (WPub (wu_cfg u) (wr_start (wu_cfg u) k (snd v) (wu_w u))), k, v.
        rewrite app_nil_r. repeat (split; [solve [auto | split; auto]|]). split; [|exact US].
        assert (c0 = c /\ e0 = e) as [-> ->]. { apply end_here in H0. apply end_here in HE. rewrite HE in H0. injection H0 as -> ->. auto. }
        destruct (started_lemma _ _ _ _ _ _ _ _ R (conj HE U)) as (os & ST & _).
        destruct MV as [(NO2 & _)|(o2 & NO2 & MV)]; [congruence|]. assert (o2 = o') as -> by congruence.
        destruct MV as (_ & _ & CN & _). rewrite C in CN. unfold lists. rewrite CN. apply (applied_listed (nc_timeout c) os t).
        destruct (call_spec (nc_timeout c) os (WApply t k v) e ST) as (_ & X & _). exact X.
      * apply end_here in HE. congruence.
      * destruct (send_view u e0 pay time a b d (idle _ _ _ _ _ _ R U)) as (w1 & WR1 & _ & _ & _ & F). rewrite WR in WR1. injection WR1 as <- _.
        apply (OLD _ U), uses_flag. apply uses_flag in US. cbn [wu_w] in US. rewrite F in US. exact US.
      * cbn in WS. injection WS as <- _. apply (OLD _ U), uses_flag. apply uses_flag in US. destruct l; exact US.
    + assert (X : exists name' id' r' c', o = WdPub p x name' id' r' c').
      { destruct o as [o|p1 x1 n1 i1 r1 c1|q y n1 i1 r1 c1|p1 sd x1 r1|p1 x1 pay time a b d|p1 x1 i1|q k j|q y o]; cbn [nop_of] in NO; try discriminate.
        - destruct o; discriminate.
        - destruct (aget p1 (nt_procs (wd_net s))); [|discriminate]. destruct (wd_end PubSide p1 x1 s); [discriminate|]. injection NO as -> -> _ _ _. eauto.
        - destruct (aget q (nt_procs (wd_net s))); [|discriminate]. destruct (wd_end SubSide q y s); discriminate.
        - destruct sd; [discriminate|]. destruct (aget x1 (wq_subs (wd_proc p1 s))) as [[? ?]|]; discriminate. }
      destruct X as (n1 & i1 & r1 & c1 & ->). cbn [wd_step] in E. cbn [nop_of] in NO. rewrite Q1 in E, NO. destruct (wd_end PubSide p x s); [discriminate|].
      rewrite nets_view in E by exact G. injection E as <- <-. set (w := set_pubs _ _) in A. change (wd_proc p _) with (wd_proc p (wd_set p w s)) in A. rewrite proc_set, Nat.eqb_refl in A.
      unfold w in A. cbn in A. rewrite aget_aset_same in A. injection A as <-. apply uses_flag in US. destruct l; discriminate.
Qed.
