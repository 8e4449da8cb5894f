From Coq Require Import Lia Bool Arith.
From Verif Require Import Base Sample ExpMapModel ExpMapProofs ConnModel ConnProofs PbModel PbSpec PbProofs SerModel SerSpec SerProofs WrModel WrSpec WrProofs RdModel RdSpec RdProofs RegModel UdpModel UdpSpec UdpProofs TcpModel TcpSpec TcpProofs GateModel GateProofs E2eModel E2eProofs NetModel NetSpec NetProofs WldModel WldSpec WldProofs WldWay WldEnd.
From Verif Require ShmModel.

Lemma whole_way ops s0 evs0 p x cp ew u q y cq er rc r k l : runs ops s0 evs0 -> publisher s0 p x cp ew u -> subscriber s0 q y cq er rc r ->
  ne_name ew = ne_name er -> hears_from cp cq -> rd_cb r = Some k -> layer_for u (key cq er) (tp_dtype (ne_rest er), reads_from rc) l ->
  forall t1, exists i, forall t2 pay time okS okU okT,
    let way := [WdNet (NCollect q t1); WdNet (NDeliver p i t2); WdSend p x pay time okS okU okT] in
    usual (ops ++ way) -> (forall s evs, runs (ops ++ way) s evs -> fits (wd_net s)) -> welcome rc r (message ew u pay time l) ->
    exists n, forall j, exists s evs, runs (ops ++ way ++ [WdPacket q n j]) s (evs0 ++ evs) /\ In (EvOut q y (ROCallback k (message ew u pay time l))) evs.
Proof.
  intros R0 [HP AP] [HS AS] NE HF CB LF t1. destruct (world_net _ _ _ R0) as (nops & N0 & SN). pose proof (runs_good _ _ _ R0) as G0.
  rewrite N0 in HP, HS. destruct (cycle_end nops q SubSide y cq er t1 HS) as (er1 & i & HS1 & M1 & M2 & M3 & _ & NT). exists i.
  intros t2 pay time okS okU okT way U F W.
  set (m := n_reg cq SubSide er1) in *. set (o1 := WdNet (NCollect q t1)) in *. set (o2 := WdNet (NDeliver p i t2)) in *. set (o3 := WdSend p x pay time okS okU okT) in *.
  (* the cycle *)
  destruct (here_fwd (NCollect q t1) _ p PubSide x cp ew (at_end_good nops) HP) as (ew1 & HP1 & K1 & K2 & _); [discriminate|]. rewrite <- at_end_snoc in HP1.
  set (s1 := World (next (NCollect q t1) (wd_net s0)) (wd_procs s0) (wd_packets s0)).
  assert (E1 : wd_step o1 s0 = Some (s1, [])) by (cbn [o1 wd_step]; rewrite nets_view by exact G0; reflexivity).
  assert (W1 : wd_net s1 = at_end (nops ++ [NCollect q t1])) by (rewrite at_end_snoc, <- N0; reflexivity).
  assert (R1 : runs (ops ++ [o1]) s1 (evs0 ++ [])) by (apply runs_snoc; eauto 8). pose proof (runs_good _ _ _ R1) as G1.
  (* its registration arrives *)
  destruct (defined_world (ops ++ way)) as (s3 & evs3 & R3). pose proof (F _ _ R3) as F3.
  assert (W3 : wd_net s3 = at_end ((nops ++ [NCollect q t1]) ++ [NDeliver p i t2])).
  { unfold way in R3. replace (ops ++ [o1; o2; o3]) with (((ops ++ [o1]) ++ [o2]) ++ [o3]) in R3 by (rewrite <- !app_assoc; reflexivity).
    apply runs_snoc in R3. destruct R3 as (sa & evsa & ea & RA & EA & _). pose proof (runs_good _ _ _ RA) as GA. rewrite (step_net _ _ _ _ GA EA). unfold net_after. cbn [o3 nop_of].
    apply runs_snoc in RA. destruct RA as (sb & evsb & eb & RB & EB & _). destruct (runs_fun _ _ _ _ _ R1 RB) as [-> _]. rewrite (step_net _ _ _ _ G1 EB). unfold net_after. cbn [o2 nop_of].
    rewrite W1, (at_end_snoc _ (NDeliver p i t2)). reflexivity. }
  assert (SA : sane (nops ++ [NCollect q t1])). { apply sane_app. split; [apply SN; destruct (usual_app _ _ U); assumption|]. constructor; [exact Logic.I|constructor]. }
  rewrite W3 in F3. apply fits_app in F3 as F1.
  assert (AN : announces cq SubSide er1 m) by apply announces_reg.
  assert (TN : tp_tname (sm_topic m) = ne_name ew1). { destruct AN as (_ & (_ & _ & _ & _ & X) & _). rewrite X, K1, M1. congruence. }
  pose proof (values ops s0 evs0 p x cp ew u) as VA. 
  assert (PO : pub_ok (length ops) cp ew u). { apply VA; [destruct (usual_app _ _ U); assumption|exact R0|split; [rewrite N0; exact HP|exact AP]]. }
  set (v := (tp_dtype (sm_topic m), GateModel.layers_of m)).
  assert (CA : cause (NDeliver p i t2) (nt_sent (at_end (nops ++ [NCollect q t1]))) p cp PubSide ew1 = Some (WApply t2 (info_of m) v)).
  { rewrite (cause_deliver _ p cp PubSide ew1 i t2 m SA F1 NT TN). apply effect_reg; [reflexivity| |apply (hears_announced _ _ _ _ _ AN HF)|discriminate].
    rewrite TN, K1. destruct (po_name _ _ _ _ PO) as (X & _). exact X. }
  destruct (timed_told _ _ _ _ _ _ HP1) as (os & St & Ti).
  destruct (step_call _ (NDeliver p i t2) p PubSide x cp ew1 _ os HP1 St Ti ltac:(discriminate) CA) as (ew2 & HP2 & K3 & K4 & St2 & _).
  pose proof (applied_listed _ _ _ _ _ _ St2) as L2.
  set (u2 := WPub (wu_cfg u) (wr_start (wu_cfg u) (info_of m) (snd v) (wu_w u))).
  assert (X2 : exists s2, wd_step o2 s1 = Some (s2, []) /\ wd_net s2 = next (NDeliver p i t2) (wd_net s1) /\ aget x (wq_pubs (wd_proc p s2)) = Some u2 /\ wq_subs (wd_proc q s2) = wq_subs (wd_proc q s0)).
  { destruct HP1 as (n & Q & CN & XE). rewrite <- W1 in Q. cbn [o2 wd_step]. rewrite Q. rewrite <- W1 in NT. rewrite NT. rewrite nets_view by exact G1. eexists. split; [reflexivity|]. split; [reflexivity|].
    set (w := set_pubs _ _). split.
    - change (wd_proc p _) with (wd_proc p (wd_set p w s1)). rewrite proc_set, Nat.eqb_refl. unfold w. rewrite pubs_set, (heard_view i t2 _ p n m x _ (G1 _ _ Q) NT).
      change (wd_proc p s1) with (wd_proc p s0). rewrite AP. cbn in XE. rewrite XE, CN. rewrite <- W1 in CA. rewrite CA. reflexivity.
    - match goal with |- wq_subs (wd_proc q ?z) = _ => change (wd_proc q z) with (wd_proc q (wd_set p w s1)) end. rewrite proc_set. destruct (Nat.eqb p q) eqn:PQ; [apply Nat.eqb_eq in PQ; subst q|]; reflexivity. }
  destruct X2 as (s2 & E2 & W2 & AP2 & AS2). assert (R2 : runs ((ops ++ [o1]) ++ [o2]) s2 ((evs0 ++ []) ++ [])) by (apply runs_snoc; eauto 8). rewrite !app_nil_r in R2.
  rewrite W1, <- at_end_snoc in W2. assert (P2 : publisher s2 p x cp ew2 u2) by (split; [rewrite W2; exact HP2|exact AP2]).
  (* the layer is used *)
  assert (U2 : usual ((ops ++ [o1]) ++ [o2])). { unfold way in U. replace (ops ++ [o1; o2; o3]) with (((ops ++ [o1]) ++ [o2]) ++ [o3]) in U by (rewrite <- !app_assoc; reflexivity). exact (usual_app _ _ U). }
  assert (IK : info_of m = key cq er). { rewrite (info_key _ _ _ _ AN). unfold key. rewrite M2. reflexivity. }
  assert (RV : snd v = reads_from rc).
  { destruct (paired ops s0 evs0 q y cq er) as (rc' & r' & rd & [_ S0] & TL); [exact (usual_app _ _ U)|exact R0|rewrite N0; exact HS|]. rewrite AS in S0. injection S0 as <- <-.
    apply (sub_offers rc rd (sm_topic m)); [|apply layers_offers]. destruct AN as (_ & _ & _ & TL'). rewrite TL', M3. exact TL. }
  assert (US : uses u2 l). { apply (layer_started _ _ _ _ _ _ _ _ (info_of m) v l R2 P2); [exact L2|]. unfold layer_for. rewrite RV, IK. exact LF. }
  assert (L2' : listed ew2 = true) by (apply listed_iff; eauto).
  assert (ME : forall l', message ew2 u2 pay time l' = message ew u pay time l') by (intros l'; unfold message, u2; cbn; congruence).
  (* it is sent *)
  destruct (send_step _ _ _ _ _ _ _ _ pay time okS okU okT R2 P2) as (s4 & E3 & N3 & PK & PR3). fold o3 in E3. rewrite L2' in PK, E3.
  pose proof (values _ _ _ _ _ _ _ _ (proj1 U2) R2 P2) as PO2. destruct (one_packet _ cp ew2 u2 pay time l PO2 US) as (pk & PE & PL).
  assert (IP : In pk (flat_map (packet_of cp ew2 u2 pay time) (WrSpec.layers_of (wu_w u2)))) by (apply in_flat_map; exists l; split; [exact US|rewrite PE; now left]).
  apply In_nth_error in IP. destruct IP as (n0 & IP). exists (length (wd_packets s2) + n0). intros j.
  assert (RW : ops ++ way = ((ops ++ [o1]) ++ [o2]) ++ [o3]) by (unfold way; rewrite <- !app_assoc; reflexivity).
  match type of E3 with _ = Some (_, ?e) => set (ev3 := e) in E3 end.
  assert (R4 : runs (((ops ++ [o1]) ++ [o2]) ++ [o3]) s4 (evs0 ++ ev3)) by (apply runs_snoc; eauto 8).
  (* and arrives *)
  assert (HS4 : exists er4, here (wd_net s4) q SubSide y cq er4 /\ ne_name er4 = ne_name er).
  { rewrite N3, W2, at_end_snoc. destruct (here_fwd (NDeliver p i t2) _ q SubSide y cq er1 (at_end_good _) HS1) as (er4 & H4 & X & _); [discriminate|]. exists er4. split; [exact H4|congruence]. }
  destruct HS4 as (er4 & HS4 & NE4). assert (S4 : subscriber s4 q y cq er4 rc r) by (split; [exact HS4|]; destruct (PR3 q) as [_ ->]; rewrite AS2; exact AS).
  rewrite RW in U. destruct (arrives ((ops ++ [o1]) ++ [o2]) s2 evs0 p x cp ew2 u2 pay time okS okU okT s4 (evs0 ++ ev3) [] s4 (evs0 ++ ev3) (length (wd_packets s2) + n0) pk q y cq er4 rc r k j
    U R2 P2 R4 ltac:(lia)) as (s5 & ev & E5 & I5); [| exact R4|exact S4|congruence|exact CB|rewrite PL, ME; exact W|].
  { rewrite PK, nth_error_app2 by lia. replace (length (wd_packets s2) + n0 - length (wd_packets s2)) with n0 by lia. exact IP. }
  rewrite PL, ME in I5. exists s5. eexists. split; [|apply in_or_app; right; exact I5].
  rewrite app_assoc, RW. apply runs_snoc. eexists. eexists. eexists. split; [exact R4|]. split; [exact E5|]. rewrite app_assoc. reflexivity.
Qed.

Lemma world_reach ops s evs : runs ops s evs -> exists nops, reach nops (wd_net s) /\ (Forall usual_op ops -> sane nops).
Proof. intros R. destruct (world_net _ _ _ R) as (nops & -> & X). exists nops. split; [apply end_reach|exact X]. Qed.

(** ** Cases *)
Lemma name_usual t : t <> [] -> forallb (fun b => negb (Z.eqb b 0)) t = true -> (len t <=? 20000)%Z = true -> usual_name t.
Proof. intros N Z0 L. split; [exact N|]. split; [|apply Z.leb_le; exact L]. intros B. rewrite forallb_forall in Z0. apply Z0 in B. discriminate. Qed.
Lemma fits_by (s : net) : forallb (fun m => len (ser_sample m) <? 2 ^ 32)%Z (nt_sent s) = true -> fits s.
Proof. intros H m M. rewrite forallb_forall in H. apply H, Z.ltb_lt in M. exact M. Qed.
Ltac topic_wf := unfold wf_topic; cbn; unfold i64, i32, is_map; repeat split; repeat constructor; cbn; unfold i32; try lia.
Lemma n_pr_wf : wf_topic n_pr. Proof. topic_wf. Qed.
Lemma n_sr_wf : wf_topic n_sr. Proof. topic_wf. Qed.
Ltac world_usual := split; [repeat constructor; cbn; auto using n_pr_wf, n_sr_wf; try (apply name_usual; [discriminate|reflexivity|reflexivity]); unfold i32, i64; try (split; [lia|]); try lia; vm_compute; try discriminate; auto|reflexivity].
Lemma wd_left_usual : usual wd_left. Proof. world_usual. Qed.
Lemma wd_heard_usual : usual wd_heard. Proof. world_usual. Qed.
Ltac a_pub := split; [eexists; vm_compute; auto|vm_compute; reflexivity].
Lemma wd_left_case : exists s evs c e u v, usual wd_left /\ runs wd_left s evs /\ fits (wd_net s) /\ publisher s 1 0 c e u /\
  lists e (SubInfo (str "h2") 12 (str "201")) v /\ snd v = SubLayers true false false.
Proof.
  eexists. eexists. eexists. eexists. eexists. eexists. split; [exact wd_left_usual|]. split; [vm_compute; reflexivity|]. split; [apply fits_by; vm_compute; reflexivity|].
  split; [a_pub|]. split; [vm_compute; left; reflexivity|reflexivity].
Qed.
Lemma wd_heard_case : exists b s evs s' evs' c e r, wd_heard = wd_setup ++ b /\ usual wd_heard /\ runs wd_setup s evs /\ subscriber s 2 0 c e wd_rc r /\
  ~ In (WdNet (NDestroy 2 SubSide 0)) b /\ runs wd_heard s' (evs ++ evs') /\ map m_payload (called_at 2 0 evs') = [[3]; [4; 5]]%Z.
Proof.
  do 8 eexists. split; [reflexivity|]. split; [exact wd_heard_usual|]. split; [vm_compute; reflexivity|]. split; [a_pub|].
  split; [intros H; repeat (destruct H as [H|H]; [discriminate|]); destruct H|]. split; [vm_compute; reflexivity|vm_compute; reflexivity].
Qed.
Lemma wd_way_case : exists s0 evs0 cp ew u cq er rc r, runs wd_setup s0 evs0 /\ publisher s0 1 0 cp ew u /\ subscriber s0 2 0 cq er rc r /\
  ne_name ew = ne_name er /\ hears_from cp cq /\ rd_cb r = Some 5 /\ layer_for u (key cq er) (tp_dtype (ne_rest er), reads_from rc) tl_udp /\ (forall pay time, welcome rc r (message ew u pay time tl_udp)) /\
  exists h, option_map (called_at 2 0) (wd_seen (wd_setup ++ [WdNet (NCollect 2 0); WdNet (NDeliver 1 0 1); WdSend 1 0 [7]%Z 5 true true true] ++ [WdPacket 2 0 0])) =
    Some [Msg (str "100") [7]%Z 0 1 5 h tl_udp].
Proof.
  eexists. eexists. eexists. eexists. eexists. eexists. eexists. eexists. eexists. split; [vm_compute; reflexivity|]. split; [a_pub|]. split; [a_pub|].
  split; [reflexivity|]. split; [|split; [reflexivity|split; [exists [], [tl_tcp]; split; [reflexivity|]; split; [left; auto|intros z []]|split]]].
  - unfold hears_from, hears. cbn. right. split; [intros [H _]; discriminate|reflexivity].
  - intros pay time. unfold welcome. cbn. split; [reflexivity|]. split; [reflexivity|]. split; [tauto|]. split; [now left|]. discriminate.
  - eexists. vm_compute. reflexivity.
Qed.

Lemma wd_layer_stays : exists ops s evs p x c e u l, usual ops /\ runs ops s evs /\ fits (wd_net s) /\ publisher s p x c e u /\ uses u l /\
  (exists k v, lists e k v) /\ forall k v, lists e k v -> ~ layer_for u k v l.
Proof.
  exists wd_left. eexists. eexists. exists 1, 0. eexists. eexists. eexists. exists tl_tcp. split; [exact wd_left_usual|]. split; [vm_compute; reflexivity|]. split; [apply fits_by; vm_compute; reflexivity|].
  split; [a_pub|]. split; [vm_compute; auto|]. split; [eexists; eexists; vm_compute; left; reflexivity|].
  intros k v L. unfold lists in L. cbn in L. destruct L as [L|[]]. injection L as <- <-. intros (b & a & E & _ & B). cbn in E.
  destruct b as [|z b]; [discriminate|]. injection E as <- E. apply (B tl_udp); [now left|]. left. auto.
Qed.
Lemma wd_unheard : exists ops s evs p x c e u q y c' e' rc r pay time s', usual ops /\ runs ops s evs /\ publisher s p x c e u /\ subscriber s q y c' e' rc r /\ ne_name e = ne_name e' /\
  hears_from c c' /\ hears_from c' c /\ pay <> [] /\ wd_step (WdSend p x pay time true true true) s = Some (s', [EvRet p x (length pay)]) /\ wd_packets s' = wd_packets s.
Proof.
  exists wd_setup. eexists. eexists. exists 1, 0. eexists. eexists. eexists. exists 2, 0. eexists. eexists. eexists. eexists. exists [1; 2]%Z, 100%Z. eexists.
  split; [exact (usual_app wd_setup _ wd_heard_usual)|]. split; [vm_compute; reflexivity|]. split; [a_pub|]. split; [a_pub|]. split; [reflexivity|].
  split; [unfold hears_from, hears; cbn; right; split; [intros [H _]; discriminate|reflexivity]|]. split; [unfold hears_from, hears; cbn; right; split; [intros [H _]; discriminate|reflexivity]|]. split; [discriminate|]. split; vm_compute; reflexivity.
Qed.
Lemma wd_stranger : exists ops s evs q y c e rc r i s' ev k m, usual ops /\ runs ops s evs /\ fits (wd_net s) /\ subscriber s q y c e rc r /\ (forall k' v, ~ lists e k' v) /\
  wd_step (WdPacket q i 0) s = Some (s', ev) /\ In (EvOut q y (ROCallback k m)) ev.
Proof.
  exists wd_talk. eexists. eexists. exists 2, 0. eexists. eexists. eexists. eexists. exists 0. eexists. eexists. eexists. eexists.
  split; [exact (usual_app wd_talk _ wd_heard_usual)|]. split; [vm_compute; reflexivity|]. split; [apply fits_by; vm_compute; reflexivity|]. split; [a_pub|].
  split; [intros k v H; exact H|]. split; [vm_compute; reflexivity|]. left. reflexivity.
Qed.
