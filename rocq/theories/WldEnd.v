From Coq Require Import Lia Bool Arith.
From Verif Require Import Base Sample ExpMapModel ExpMapProofs ConnModel ConnProofs PbModel PbSpec PbProofs SerModel SerSpec SerProofs WrModel WrSpec WrProofs RdModel RdSpec RdProofs RegModel UdpModel UdpSpec UdpProofs TcpModel TcpSpec TcpProofs GateModel GateProofs E2eModel E2eProofs NetModel NetSpec NetProofs WldModel WldSpec WldProofs WldWay.
From Verif Require ShmModel.

Lemma writer_host ops s evs p x c e u : runs ops s evs -> publisher s p x c e u -> wc_host (wu_cfg u) = nc_host c.
Proof.
  revert s evs e u. induction ops as [|o ops IH] using rev_ind; intros s' evs' e' u' R [H A].
  - apply runs_nil in R. destruct R as [-> ->]. discriminate.
  - apply runs_snoc in R. destruct R as (s & evs & ev & R & E & ->). pose proof (runs_good _ _ _ R) as G. pose proof (pub_back _ _ _ _ _ _ _ G E A) as M.
    destruct (here_net _ _ _ _ _ _ _ _ _ G E H) as [(e & HE & _)|(name & id & r & NO & -> & (q1 & Q1 & C1))].
    + inversion M as [u U NA|u c0 e0 o' t k v U H0 NO C|name id r c0 q EO Q W|u pay time a b d c0 e0 w outs EO U H0 WR|u id w out EO U WS]; subst.
      3: { apply end_here in HE. congruence. }
      all: exact (IH _ _ _ _ R (conj HE U)).
    + destruct (new_pub _ _ _ _ _ _ _ NO) as (c1 & -> & W). cbn [wd_step] in E. rewrite Q1, W in E. rewrite nets_view in E by exact G. injection E as <- <-.
      set (w := set_pubs _ _) in A. change (wd_proc p _) with (wd_proc p (wd_set p w s)) in A. rewrite proc_set, Nat.eqb_refl in A.
      unfold w in A. cbn in A. rewrite aget_aset_same in A. injection A as <-. cbn. congruence.
Qed.
(** ** Sending *)
Lemma one_packet n c e u pay time l : pub_ok n c e u -> uses u l -> exists k, packet_of c e u pay time l = [k] /\ layer_of_packet k = l.
Proof.
  intros O US. assert (X : exists k, packet_of c e u pay time l = [k]).
  { destruct O as [(_ & _ & A) (_ & _ & B) _ _ _ _]. unfold packet_of, packets_of. cbn [flat_map tx_of tx_layer]. rewrite app_nil_r. apply uses_flag in US. destruct l; try discriminate; cbn; [eauto|eauto|].
    unfold tcp_out. cbn. destruct (frame_fits (ne_name e) (ne_id e) (TMsg (w_user_id (wu_w u)) (w_clock (wu_w u) + 1) time (snd_hash (wc_tid_hash (wu_cfg u)) (w_clock (wu_w u) + 1)) pay)) as (f & ->); [lia|]. cbn. eauto. }
  destruct X as (k & E). exists k. split; [exact E|]. apply (packet_layer c e u pay time l). rewrite E. now left.
Qed.
Lemma send_all ops s evs p x c e u pay time okS okU okT : usual (ops ++ [WdSend p x pay time okS okU okT]) -> runs ops s evs -> publisher s p x c e u ->
  exists s' new n, runs (ops ++ [WdSend p x pay time okS okU okT]) s' (evs ++ [EvRet p x n]) /\ wd_packets s' = wd_packets s ++ new /\
    ((exists k v, lists e k v) -> map layer_of_packet new = WrSpec.layers_of (wu_w u) /\
       ((exists l, uses u l /\ answer okS okU okT l = true) -> n = length pay) /\ ((forall l, uses u l -> answer okS okU okT l = false) -> n = 0)) /\
    ((forall k v, ~ lists e k v) -> new = [] /\ n = length pay).
Proof.
  intros U R P. destruct (send_step _ _ _ _ _ _ _ _ pay time okS okU okT R P) as (s' & E & _ & PK & _). apply usual_app in U as [F _].
  eexists. eexists. eexists. split; [apply runs_snoc; eauto 8|]. split; [exact PK|]. split.
  - intros L. apply listed_iff in L. rewrite L. split.
    + pose proof (values _ _ _ _ _ _ _ _ F R P) as PO. assert (Z : forall l, In l (WrSpec.layers_of (wu_w u)) -> uses u l) by auto. revert Z. generalize (WrSpec.layers_of (wu_w u)) as ls.
      induction ls as [|l ls IH]; intros Z; cbn [flat_map map]; [reflexivity|]. destruct (one_packet _ c e u pay time l PO (Z l (or_introl eq_refl))) as (k & E1 & E2).
      rewrite E1. cbn [app map]. rewrite E2, IH; [reflexivity|]. intros l' I1. apply Z. now right.
    + set (b := (_ || _ || _)%bool). assert (B : b = true <-> exists l, uses u l /\ answer okS okU okT l = true).
      { unfold b. rewrite !orb_true_iff, !andb_true_iff. split.
        - intros [[[A1 A2]|[A1 A2]]|[A1 A2]]; [exists tl_shm|exists tl_udp|exists tl_tcp]; (split; [apply uses_flag; exact A1|exact A2]).
        - intros (l & A1 & A2). apply uses_flag in A1. destruct l; try discriminate; cbn in A1, A2; auto. }
      split.
      * intros X. apply B in X. rewrite X. reflexivity.
      * intros X. destruct b eqn:EB; [|reflexivity]. destruct (proj1 B eq_refl) as (l & A1 & A2). rewrite (X l A1) in A2. discriminate.
  - intros NL. assert (L : listed e = false). { destruct (listed e) eqn:L; [|reflexivity]. apply listed_iff in L. destruct L as (k & v & L). destruct (NL k v L). }
    rewrite L. auto.
Qed.
(** ** Arriving *)
Lemma welcome_takes rc r m : welcome rc r m -> takes rc r m = true.
Proof.
  intros (A & B & C & D & E). rewrite takes_eq. unfold RdProofs.fresh, reaches, idok, ckok, ckres. rewrite A, B. cbn [andb].
  assert (X : existsb (Z.eqb (m_hash m)) (rd_hashes r) = false).
  { destruct (existsb _ _) eqn:X; [|reflexivity]. apply existsb_exists in X. destruct X as (h & I1 & X). apply Z.eqb_eq in X. subst h. contradiction. }
  rewrite X. cbn [negb andb].
  assert (Y : match rd_ids r with [] => true | _ => existsb (Z.eqb (m_id m)) (rd_ids r) end = true).
  { destruct D as [-> | D]; [reflexivity|]. destruct (rd_ids r) as [|i l] eqn:I1; [reflexivity|]. apply existsb_exists. exists (m_id m). split; [exact D|apply Z.eqb_refl]. }
  rewrite Y. cbn [andb]. pose proof (check_clock_cases (rc_drop_ooo rc) (aget (m_tid m) (rd_clocks r)) (m_clock m)) as K.
  destruct (aget (m_tid m) (rd_clocks r)) as [n|]; [|rewrite K; reflexivity]. specialize (E n eq_refl).
  destruct K as [[_ ->]|[[K _]|[[_ ->]|[K _]]]]; try reflexivity; lia.
Qed.
Lemma packet_step ops s evs q y c e rc r i j pk m : usual ops -> runs ops s evs -> subscriber s q y c e rc r -> nth_error (wd_packets s) i = Some pk -> from_send ops pk (ne_name e) m ->
  exists s' ev, wd_step (WdPacket q i j) s = Some (s', ev) /\ outs_at q y ev = snd (rd_apply rc m r).
Proof.
  intros U R [(n & N & NC & X) A] K FS. pose proof (runs_good _ _ _ R) as G. cbn [wd_step]. rewrite N, K. cbv zeta.
  destruct (hear_from ops pk (ne_name e) m (hf_gate (np_sub n)) j (wd_proc q s) U FS (listens _ _ _ U R q)) as (H1 & H2 & _ & H4).
  destruct (wq_hear (hf_gate (np_sub n)) j pk (wd_proc q s)) as [w xs]. cbn [fst snd] in *.
  pose proof (pg_half _ (G _ _ N) SubSide) as HG. cbn [np_half] in HG, X. rewrite (give_heard _ _ _ _ _ _ HG H4), H2.
  destruct (give_view m y (gt_range (ne_name e) (hf_gate (np_sub n))) (wq_subs (wd_proc q s)) (nodup_range _ _ _ HG)) as [V1 V2].
  destruct (give m _ _) as [l outs]. cbn [fst snd] in *. eexists. eexists. split; [reflexivity|]. rewrite outs_packet, Nat.eqb_refl, V2, (range_spec _ _ _ _ HG). unfold reacts. rewrite X, eqb_refl, A. reflexivity.
Qed.
Lemma outs_in q y o ev : In o (outs_at q y ev) -> In (EvOut q y o) ev.
Proof.
  unfold outs_at. rewrite in_flat_map. intros ([p x n|q' y' o'] & I1 & I2); [destruct I2|]. destruct (Nat.eqb q' q && Nat.eqb y' y)%bool eqn:E; [|destruct I2].
  apply andb_prop in E. destruct E as [E1 E2]. apply Nat.eqb_eq in E1, E2. subst. destruct I2 as [<-|[]]. exact I1.
Qed.
Lemma packets_more a b s evs s' evs' : runs a s evs -> runs (a ++ b) s' evs' -> exists new, wd_packets s' = wd_packets s ++ new.
Proof.
  intros R. revert s' evs'. induction b as [|o b IH] using rev_ind; intros s' evs' R'.
  - rewrite app_nil_r in R'. destruct (runs_fun _ _ _ _ _ R R') as [-> _]. exists []. rewrite app_nil_r. reflexivity.
  - rewrite app_assoc in R'. apply runs_snoc in R'. destruct R' as (s2 & evs2 & ev & R2 & E & ->). destruct (IH _ _ R2) as (new & N).
    destruct (packets_back _ _ _ _ (runs_good _ _ _ R2) E) as [->|(p & x & pay & time & o1 & o2 & o3 & c & e & u & -> & P)]; [eauto|].
    destruct (send_step _ _ _ _ _ _ _ _ pay time o1 o2 o3 R2 P) as (s3 & E3 & _ & PK & _). rewrite E in E3. injection E3 as <- _. rewrite PK, N, <- app_assoc. eauto.
Qed.
Lemma sent_packet a s evs p x c e u pay time okS okU okT b s1 evs1 i pk : runs a s evs -> publisher s p x c e u ->
  runs (a ++ [WdSend p x pay time okS okU okT]) s1 evs1 -> length (wd_packets s) <= i -> nth_error (wd_packets s1) i = Some pk ->
  from_send (a ++ WdSend p x pay time okS okU okT :: b) pk (ne_name e) (message e u pay time (layer_of_packet pk)).
Proof.
  intros R P R1 LE N. destruct (send_step _ _ _ _ _ _ _ _ pay time okS okU okT R P) as (s2 & E2 & _ & PK & _). apply runs_snoc in R1. destruct R1 as (s3 & evs3 & ev & R3 & E3 & _).
  destruct (runs_fun _ _ _ _ _ R R3) as [-> _]. rewrite E3 in E2. injection E2 as <- _. rewrite PK, nth_error_app2 in N by exact LE. apply nth_error_In in N.
  destruct (listed e) eqn:L; [|destruct N]. apply in_flat_map in N. destruct N as (l & US & I1). exists a, b, p, x, pay, time, okS, okU, okT, s, evs, c, e, u, l.
  rewrite (packet_layer _ _ _ _ _ _ _ I1). auto 12.
Qed.
Lemma arrives a s evs p x c e u pay time okS okU okT s1 evs1 b s2 evs2 i pk q y c' e' rc r k j :
  let ops := a ++ WdSend p x pay time okS okU okT :: b in usual ops -> runs a s evs -> publisher s p x c e u ->
  runs (a ++ [WdSend p x pay time okS okU okT]) s1 evs1 -> length (wd_packets s) <= i -> nth_error (wd_packets s1) i = Some pk ->
  runs ops s2 evs2 -> subscriber s2 q y c' e' rc r -> ne_name e' = ne_name e -> rd_cb r = Some k -> welcome rc r (message e u pay time (layer_of_packet pk)) ->
  exists s3 ev, wd_step (WdPacket q i j) s2 = Some (s3, ev) /\ In (EvOut q y (ROCallback k (message e u pay time (layer_of_packet pk)))) ev.
Proof.
  intros ops U R P R1 LE N R2 S2 NE CB W. pose proof (sent_packet _ _ _ _ _ _ _ _ _ _ _ _ _ b _ _ _ _ R P R1 LE N) as FS. fold ops in FS. rewrite <- NE in FS.
  assert (N2 : nth_error (wd_packets s2) i = Some pk).
  { unfold ops in R2. replace (a ++ WdSend p x pay time okS okU okT :: b) with ((a ++ [WdSend p x pay time okS okU okT]) ++ b) in R2 by (rewrite <- app_assoc; reflexivity).
    destruct (packets_more _ _ _ _ _ _ R1 R2) as (new & ->). rewrite nth_error_app1; [exact N|]. apply nth_error_Some. congruence. }
  destruct (packet_step ops s2 evs2 q y c' e' rc r i j pk _ U R2 S2 N2 FS) as (s3 & ev & E & O). exists s3, ev. split; [exact E|]. apply outs_in. rewrite O, apply_outs, (welcome_takes _ _ _ W), CB.
  apply in_or_app. right. now left.
Qed.
(** ** Discovery *)
Lemma destroyed s q sd y c e : good (wd_net s) -> ~ here (next (NDestroy q sd y) (wd_net s)) q sd y c e.
Proof.
  intros G H. pose proof H as (n' & Q' & _ & X'). destruct (proc_back _ _ _ _ Q') as [(n & Q)|(c' & X & _)]; [|discriminate].
  destruct (proc_next (NDestroy q sd y) _ q n G Q) as (n2 & Q2 & _ & EN). rewrite Q' in Q2. injection Q2 as <-. rewrite EN in X'. unfold end_next in X'.
  destruct (aget y (hf_ends (np_half sd n))); [|discriminate]. rewrite !Nat.eqb_refl in X'. destruct sd; discriminate.
Qed.
Lemma paired ops s evs q y c e : usual ops -> runs ops s evs -> here (wd_net s) q SubSide y c e ->
  exists rc r rd, subscriber s q y c e rc r /\ tp_layers (ne_rest e) = sub_tlayers rc rd.
Proof.
  revert s evs e. induction ops as [|o ops IH] using rev_ind; intros s' evs' e' U R H.
  - apply runs_nil in R. destruct R as [-> ->]. destruct H as (? & ? & _). discriminate.
  - apply runs_snoc in R. destruct R as (s & evs & ev & R & E & ->). apply usual_app in U as U0. pose proof (runs_good _ _ _ R) as G.
    destruct (subs_step ops s evs o s' ev q y U0 R (listens _ _ _ U0 R) E) as [SN _].
    destruct (here_net _ _ _ _ _ _ _ _ _ G E H) as [(e & HE & _ & _ & MV)|(name & id & r & NO & -> & (q1 & Q1 & C1))].
    + destruct (IH _ _ _ U0 R HE) as (rc & r & rd & S0 & TL). assert (ND : o <> WdNet (NDestroy q SubSide y)).
      { intros ->. rewrite (step_net _ _ _ _ G E) in H. exact (destroyed _ _ _ _ _ _ G H). }
      destruct (sub_fwd _ _ _ _ _ _ _ _ _ _ _ _ U0 R S0 ND E) as (e2 & r2 & [_ S2] & _). exists rc, r2.
      destruct MV as [(_ & ->)|(o' & NO & _ & _ & _ & [->|(r0 & -> & ->)])]; [exists rd; split; [split; assumption|exact TL]..|].
      destruct o as [o|p1 x1 n1 i1 r1 c1|q1 y1 n1 i1 r1 c1|p1 sd x1 r1|p1 x1 pay time a b d|p1 x1 i1|q1 k j|q1 y1 o]; cbn [nop_of] in NO; try discriminate.
      * destruct o; discriminate.
      * destruct (aget p1 (nt_procs (wd_net s))); [|discriminate]. destruct (wd_end PubSide p1 x1 s); discriminate.
      * destruct (aget q1 (nt_procs (wd_net s))); [|discriminate]. destruct (wd_end SubSide q1 y1 s); discriminate.
      * destruct sd; [discriminate|]. destruct (aget x1 (wq_subs (wd_proc p1 s))) as [[c1 rd1]|] eqn:A1; [|discriminate]. injection NO as -> -> <-.
        destruct S0 as [_ A0]. rewrite A0 in A1. injection A1 as <- <-. exists r. split; [split; assumption|reflexivity].
    + pose proof NO as NO'. destruct (new_sub _ _ _ _ _ _ _ NO) as (c1 & r1 & -> & W). cbn [nop_of] in NO'. rewrite Q1, W in NO'. injection NO' as <-.
      inversion SN as [X1 X2 X3 X4|X1 X3 X4|name1 id1 r0 c0 n X1 X2 X3 X4 X5|o' c0 r0 X1 X2 X3 X4 X5 X6|k j c0 e0 c2 r0 pk m X1 XK X2 X3 X4 X5 X6]; try discriminate.
      * destruct (X2 _ _ _ _ _ eq_refl Q1 W).
      * injection X1 as <- <- <- <-. exists c1, rd_new, rd_new. split; [split; [exact H|symmetry; assumption]|reflexivity].
Qed.
Lemma world_prefix ops s evs : runs ops s evs -> exists nops, wd_net s = at_end nops /\ (Forall usual_op ops -> sane nops) /\
  forall n1 n2, nops = n1 ++ n2 -> exists a b s1 evs1, ops = a ++ b /\ runs a s1 evs1 /\ wd_net s1 = at_end n1.
Proof.
  revert s evs. induction ops as [|o ops IH] using rev_ind; intros s' evs' R.
  - pose proof R as R0. apply runs_nil in R. destruct R as [-> ->]. exists []. split; [reflexivity|]. split; [constructor|]. intros n1 n2 E. symmetry in E. apply app_eq_nil in E. destruct E as [-> ->].
    exists [], [], world0, []. auto.
  - pose proof R as R'. apply runs_snoc in R. destruct R as (s & evs & e & R & E & ->). destruct (IH _ _ R) as (nops & N & S1 & PR). pose proof (runs_good _ _ _ R) as G.
    pose proof (step_net _ _ _ _ G E) as N2. unfold net_after in N2.
    assert (OLD : forall n1 n2, nops = n1 ++ n2 -> exists a b s1 evs1, ops ++ [o] = a ++ b /\ runs a s1 evs1 /\ wd_net s1 = at_end n1).
    { intros n1 n2 X. destruct (PR n1 n2 X) as (a & b & s1 & evs1 & -> & H). exists a, (b ++ [o]), s1, evs1. rewrite <- app_assoc. auto. }
    destruct (nop_of o s) as [o'|] eqn:NO.
    + exists (nops ++ [o']). split; [rewrite N2, N, at_end_snoc; reflexivity|]. split.
      * intros F. apply Forall_app in F. destruct F as [F1 F2]. apply sane_app. split; [auto|]. constructor; [|constructor]. apply (nop_sane o s); [|exact NO]. inversion F2; assumption.
      * intros n1 n2 X. destruct n2 as [|z n2 _] using rev_ind.
        -- rewrite app_nil_r in X. subst n1. exists (ops ++ [o]), [], s', (evs ++ e). rewrite app_nil_r. split; [reflexivity|]. split; [exact R'|]. rewrite N2, N, at_end_snoc. reflexivity.
        -- rewrite app_assoc in X. apply app_inj_tail in X. destruct X as [X _]. exact (OLD _ _ X).
    + exists nops. split; [congruence|]. split; [intros F; apply Forall_app in F; tauto|]. exact OLD.
Qed.
Lemma sub_offers rc rd r v : tp_layers r = sub_tlayers rc rd -> offers r v -> snd v = reads_from rc.
Proof.
  intros T (_ & A & B & C). unfold offered in A, B, C. rewrite T in A, B, C. unfold reads_from. destruct (snd v) as [u0 s0 t0]. cbn [sl_udp sl_shm sl_tcp] in A, B, C.
  assert (EQ : forall x y : bool, (x = true <-> y = true) -> x = y) by (intros [|] [|] H; try reflexivity; [symmetry; apply H; reflexivity|apply H; reflexivity]).
  assert (X : forall ty, (exists y, In y (sub_tlayers rc rd) /\ ly_type y = ty /\ (ly_enabled y = true \/ (ly_version y < 2)%Z)) <->
    (ty = tl_udp /\ rc_udp rc = true \/ ty = tl_shm /\ rc_shm rc = true \/ ty = tl_tcp /\ rc_tcp rc = true)).
  { intros ty. unfold sub_tlayers, layer_version. split.
    - intros (y & [<-|[<-|[<-|[]]]] & <- & [V|V]); cbn in V |- *; try lia; auto.
    - intros [[-> V]|[[-> V]|[-> V]]].
      + exists (TLayer tl_udp 2 (rc_udp rc) (rd_act_udp rd) 0%Z []). cbn. auto.
      + exists (TLayer tl_shm 2 (rc_shm rc) (rd_act_shm rd) 0%Z []). cbn. auto.
      + exists (TLayer tl_tcp 2 (rc_tcp rc) (rd_act_tcp rd) 0%Z []). cbn. auto. }
  f_equal; apply EQ; [rewrite A|rewrite B|rewrite C]; rewrite X; intuition congruence.
Qed.
Lemma listed_reads ops s evs p x c e u k v : usual ops -> runs ops s evs -> fits (wd_net s) -> publisher s p x c e u -> lists e k v ->
  exists a b s1 evs1 q y c' e' rc r, ops = a ++ b /\ runs a s1 evs1 /\ subscriber s1 q y c' e' rc r /\ k = key c' e' /\ ne_name e' = ne_name e /\ hears_from c c' /\ snd v = reads_from rc.
Proof.
  intros U R F [H A] L. destruct (world_prefix _ _ _ R) as (nops & N & S1 & PR). rewrite N in *. pose proof (S1 (proj1 U)) as SA.
  destruct (origin_lemma nops _ p PubSide x c e k v SA (end_reach nops) F H L) as (n1 & n2 & t1 & q & y & c' & e' & EN & RE & HE & EK & NE & OF & HF & _).
  apply reach_end in RE. subst t1. destruct (PR _ _ EN) as (a & b & s1 & evs1 & -> & R1 & W1). rewrite <- W1 in HE. cbn [other] in HE.
  destruct (paired _ _ _ _ _ _ _ (usual_app _ _ U) R1 HE) as (rc & r & rd & S2 & TL). exists a, b, s1, evs1, q, y, c', e', rc, r.
  repeat (split; [solve [auto]|]). exact (sub_offers _ _ _ _ TL OF).
Qed.
