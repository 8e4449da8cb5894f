From Coq Require Import Lia Bool Arith.
From Verif Require Import Base Sample ExpMapModel ExpMapProofs ConnModel ConnProofs PbModel PbSpec PbProofs SerModel SerSpec SerProofs WrModel WrSpec WrProofs RdModel RdSpec RdProofs RegModel UdpModel UdpSpec UdpProofs TcpModel TcpSpec TcpProofs GateModel GateProofs E2eModel E2eProofs NetModel NetSpec NetProofs WldModel WldSpec WldProofs.
From Verif Require ShmModel E2eSpec.
Notation called := E2eSpec.called.

(** ** The values of a publisher *)
Lemma host_ok ops s evs p q : Forall usual_op ops -> runs ops s evs -> aget p (nt_procs (wd_net s)) = Some q -> (len (nc_host (np_cfg q)) <= 20000)%Z.
Proof.
  revert s evs q. induction ops as [|o ops IH] using rev_ind; intros s' evs' q' F R Q.
  - apply runs_nil in R. destruct R as [-> ->]. discriminate.
  - apply runs_snoc in R. destruct R as (s & evs & ev & R & E & ->). pose proof (runs_good _ _ _ R) as G. apply Forall_app in F. destruct F as [F1 F2].
    rewrite (step_net _ _ _ _ G E) in Q. unfold net_after in Q. destruct (nop_of o s) as [o'|] eqn:NO; [|eauto].
    destruct (proc_back _ _ _ _ Q) as [(q0 & Q0)|(c & -> & -> & _)].
    + destruct (proc_next o' _ p q0 G Q0) as (q1 & Q1 & C1 & _). rewrite Q in Q1. injection Q1 as <-. rewrite C1. eauto.
    + destruct o as [o|p1 x1 n1 i1 r1 c1|q y n1 i1 r1 c1|p1 sd x1 r1|p1 x1 pay time a b d|p1 x1 i1|q k j|q y o]; cbn [nop_of] in NO; try discriminate.
      * destruct o; try discriminate. injection NO as <- <-. inversion F2 as [|? ? U]. cbn in U. cbn. tauto.
      * destruct (aget p1 (nt_procs (wd_net s))); [|discriminate]. destruct (wd_end PubSide p1 x1 s); discriminate.
      * destruct (aget q (nt_procs (wd_net s))); [|discriminate]. destruct (wd_end SubSide q y s); discriminate.
      * destruct sd; [discriminate|]. destruct (aget x1 (wq_subs (wd_proc p1 s))) as [[? ?]|]; discriminate.
Qed.
Record pub_ok (n : nat) (c : ncfg) (e : nend) (u : wpub) : Prop := {
  po_name : usual_name (ne_name e); po_id : usual_name (ne_id e); po_host : (len (nc_host c) <= 20000)%Z;
  po_clock : (0 <= w_clock (wu_w u) <= Z.of_nat n)%Z; po_user : i64 (w_user_id (wu_w u)); po_hash : (0 <= wc_tid_hash (wu_cfg u) < 2 ^ 64)%Z }.
Lemma new_pub o s p x name id r : nop_of o s = Some (NCreate p PubSide x name id r) -> exists c, o = WdPub p x name id r c /\ wd_end PubSide p x s = None.
Proof.
  intros NO. destruct o as [o|p1 x1 n1 i1 r1 c1|q y n1 i1 r1 c1|p1 sd x1 r1|p1 x1 pay time a b d|p1 x1 i1|q k j|q y o]; cbn [nop_of] in NO; try discriminate.
  - destruct o; discriminate.
  - destruct (aget p1 (nt_procs (wd_net s))); [|discriminate]. destruct (wd_end PubSide p1 x1 s) eqn:W; [discriminate|]. injection NO as -> -> -> -> ->. eauto.
  - destruct (aget q (nt_procs (wd_net s))); [|discriminate]. destruct (wd_end SubSide q y s); discriminate.
  - destruct sd; [discriminate|]. destruct (aget x1 (wq_subs (wd_proc p1 s))) as [[? ?]|]; discriminate.
Qed.
Lemma values ops s evs p x c e u : Forall usual_op ops -> runs ops s evs -> publisher s p x c e u -> pub_ok (length ops) c e u.
Proof.
  revert s evs e u. induction ops as [|o ops IH] using rev_ind; intros s' evs' e' u' F R P.
  - apply runs_nil in R. destruct R as [-> ->]. destruct P as [_ P]. discriminate.
  - pose proof R as R'. apply runs_snoc in R. destruct R as (s & evs & ev & R & E & ->). pose proof (runs_good _ _ _ R) as G. destruct P as [H A]. pose proof (pub_back _ _ _ _ _ _ _ G E A) as M.
    assert (HO : (len (nc_host c) <= 20000)%Z). { destruct H as (q & Q & <- & _). exact (host_ok _ _ _ _ _ F R' Q). }
    apply Forall_app in F. destruct F as [F1 F2]. apply Forall_inv in F2.
    destruct (here_net _ _ _ _ _ _ _ _ _ G E H) as [(e & HE & NN & NI & _)|(name & id & r & NO & -> & (q1 & Q1 & C1))].
    + inversion M as [u U NA|u c0 e0 o' t k v U H0 NO C|name id r c0 q EO Q W|u pay time a b d c0 e0 w outs EO U H0 WR|u id w out EO U WS]; subst.
      3: { apply end_here in HE. congruence. }
      all: destruct (IH _ _ _ _ F1 R (conj HE U)) as [A1 A2 A3 A4 A5 A6].
      * constructor; rewrite ?NN, ?NI, ?app_length; cbn [length]; auto. lia.
      * constructor; rewrite ?NN, ?NI, ?app_length; cbn [length wu_w wu_cfg wr_start w_clock w_user_id]; auto. lia.
      * destruct (send_view u e0 pay time a b d (idle _ _ _ _ _ _ R U)) as (w1 & WR1 & _ & C1 & I1 & _). rewrite WR in WR1. injection WR1 as <- _.
        constructor; rewrite ?NN, ?NI, ?app_length; cbn [length wu_w wu_cfg]; rewrite ?C1, ?I1; auto. lia.
      * cbn in WS. injection WS as <- _. constructor; rewrite ?NN, ?NI, ?app_length; cbn [length wu_w wu_cfg w_clock w_user_id]; auto. lia.
    + destruct (new_pub _ _ _ _ _ _ _ NO) as (c1 & -> & W). cbn in F2. destruct F2 as (_ & F2 & F3 & F4).
      cbn [wd_step] in E. rewrite Q1, W in E. rewrite nets_view in E by exact G. injection E as <- <-.
      set (w := set_pubs _ _) in A. change (wd_proc p _) with (wd_proc p (wd_set p w s)) in A. rewrite proc_set, Nat.eqb_refl in A.
      unfold w in A. cbn in A. rewrite aget_aset_same in A. injection A as <-. constructor; cbn; auto; [lia|unfold i64; lia].
Qed.

(** ** What a packet becomes *)
(** The message of a send on one layer, and the packets of it. *)
Definition tx_of (u : wpub) (pay : list Z) (time : Z) (l : ltype) : WrModel.tx :=
  Tx l (w_user_id (wu_w u)) (w_clock (wu_w u) + 1)%Z time (snd_hash (wc_tid_hash (wu_cfg u)) (w_clock (wu_w u) + 1)%Z) (length pay) (Some pay).
Definition packet_of (c : ncfg) (e : nend) (u : wpub) (pay : list Z) (time : Z) (l : ltype) : list packet := packets_of (wu_pub c e u) [WTx (tx_of u pay time l)].
Lemma packet_layer c e u pay time l k : In k (packet_of c e u pay time l) -> layer_of_packet k = l.
Proof.
  unfold packet_of, packets_of. cbn [flat_map tx_of tx_layer]. rewrite app_nil_r. destruct l; cbn; try tauto.
  - intros [<-|[]]. reflexivity.
  - intros [<-|[]]. reflexivity.
  - unfold tcp_out. cbn. destruct (tcp_frame _ _ _); cbn; [|tauto]. intros [<-|[]]. reflexivity.
Qed.
Definition hears_as (g : gate) (name : text) (m : msg) (xs : list (text * msg)) : Prop := xs = [(name, m)] \/ (has_sample g name = false /\ xs = []).
Local Open Scope Z_scope.
Lemma hear_packet n c e u pay time l k g j q : pub_ok n c e u -> Z.of_nat n < 2 ^ 63 - 1 -> len pay < 2 ^ 31 -> i64 time -> In k (packet_of c e u pay time l) -> wq_udp q = Listening ->
  wq_udp (fst (wq_hear g j k q)) = Listening /\ wq_subs (fst (wq_hear g j k q)) = wq_subs q /\ wq_pubs (fst (wq_hear g j k q)) = wq_pubs q /\
  hears_as g (ne_name e) (message e u pay time l) (snd (wq_hear g j k q)).
Proof.
  intros [(N1 & NZ & N3) (N4 & _ & N6) A3 A4 A5 A6] BN BP BT K L. set (p := wu_pub c e u). pose proof (len_nonneg (nc_host c)). pose proof (len_nonneg (ne_name e)). pose proof (len_nonneg (ne_id e)).
  pose proof (snd_hash_range _ (w_clock (wu_w u) + 1) A6) as HR. assert (BC : i64 (w_clock (wu_w u) + 1)) by (unfold i64; lia).
  unfold packet_of, packets_of in K. cbn [flat_map tx_of tx_layer] in K. rewrite app_nil_r in K. fold p in K. destruct l; cbn [option_list In] in K; try tauto.
  - destruct K as [<-|[]]. cbn [wq_hear tx_of tx_bytes]. rewrite L. cbn [rx_step]. rewrite round_trip; [|exact NZ|unfold p, wu_pub, len in *; cbn [p_topic]; lia].
    assert (MO : message_of tl_udp (ser_payload (udp_sample p (tx_of u pay time tl_udp) pay)) = Some (ne_name e, message e u pay time tl_udp)).
    { rewrite GateProofs.message_ok; [| |apply udp_size; [cbn; lia|exact BP]|reflexivity].
      - unfold udp_sample, message, tx_of. cbn [ps_tname ps_tid ps_payload ps_id ps_clock ps_time ps_hash WrModel.tx_id WrModel.tx_clock WrModel.tx_time WrModel.tx_hash p p_topic p_tid wu_pub]. rewrite i64_mod by exact HR. reflexivity.
      - unfold wf_psample, udp_sample, tx_of. cbn [ps_cmd ps_id ps_clock ps_time ps_hash ps_size WrModel.tx_id WrModel.tx_clock WrModel.tx_time WrModel.tx_hash].
        split; [discriminate|]. repeat split; try apply A5; try apply BC; try apply BT; try apply to_i64_range; lia. }
    change (p_topic p) with (ne_name e). fold (tx_of u pay time tl_udp). destruct (has_sample g (ne_name e)) eqn:HS; cbn [fst snd wq_udp wq_subs wq_pubs flat_map].
    + rewrite MO. repeat (split; [reflexivity|]). left. reflexivity.
    + repeat (split; [reflexivity|]). right. auto.
  - destruct K as [<-|[]]. cbn. repeat (split; [auto|]). left. reflexivity.
  - unfold tcp_out in K. cbn [tx_of tx_bytes WrModel.tx_id WrModel.tx_clock WrModel.tx_time WrModel.tx_hash] in K. set (tm := TMsg _ _ _ _ _) in K. destruct (tcp_frame (p_topic p) (p_tid p) tm) as [f|] eqn:F; [|destruct K].
    destruct K as [<-|[]]. assert (W : wf_tmsg tm) by (split; [exact A5|split; [exact BC|split; [exact BT|exact HR]]]).
    cbn [wq_hear]. set (h := match aget j (wq_tcp q) with Some h => h | None => psample0 end).
    destruct (receive_ok h _ _ tm f W BP F N1 N4) as (x & RX & HX). destruct (tcp_receive h f) as [t' r]. cbn [snd] in RX. subst r.
    cbn [fst snd wq_udp wq_subs wq_pubs]. repeat (split; [auto|]). left.
    destruct HX as (B1 & B2 & B3 & B4 & B5 & B6 & B7 & B8). rewrite B1, B2, B3, B4, B5, B6. unfold message. cbn [tm tm_payload tm_id tm_clock tm_time]. 
    assert (HE : TcpModel.tx_hash x mod 2 ^ 64 = snd_hash (wc_tid_hash (wu_cfg u)) (w_clock (wu_w u) + 1)).
    { unfold tm in B8. cbn [tm_hash] in B8. destruct B8 as [-> | ->]; [now apply Z.mod_small|].
      rewrite <- Z.add_opp_r. replace (- 2 ^ 64) with ((-1) * 2 ^ 64) by lia. rewrite Z.mod_add by lia. now apply Z.mod_small. }
    rewrite HE. reflexivity.
Qed.
Local Close Scope Z_scope.

(** ** Sending *)
Definition listed (e : nend) : bool := match em_contents (cn_map (ne_conn e)) with [] => false | _ => true end.
Lemma listed_iff e : listed e = true <-> exists k v, lists e k v.
Proof.
  unfold listed, lists. destruct (em_contents (cn_map (ne_conn e))) as [|[k v] l]; split; try easy.
  - intros (k & v & []).
  - intros _. exists k, v. now left.
Qed.
Lemma packets_map {X : Type} p (l : list X) n (f : X -> WrModel.tx) : packets_of p (map (fun y => WTx (f y)) l ++ [WRet n]) = flat_map (fun y => packets_of p [WTx (f y)]) l.
Proof.
  unfold packets_of. rewrite flat_map_app. cbn [flat_map]. rewrite app_nil_r. induction l as [|y l IH]; cbn [map flat_map]; [reflexivity|]. rewrite IH, app_nil_r. reflexivity.
Qed.
Lemma results_map {X : Type} (f : X -> WrModel.tx) l n : results_of (map (fun y => WTx (f y)) l ++ [WRet n]) = [n].
Proof. unfold results_of. rewrite flat_map_app. induction l as [|y l IH]; cbn [map flat_map app] in *; [reflexivity|exact IH]. Qed.
Lemma send_step ops s evs p x c e u pay time a b d : runs ops s evs -> publisher s p x c e u ->
  exists s', wd_step (WdSend p x pay time a b d) s =
    Some (s', [EvRet p x (if listed e then if (w_shm (wu_w u) && a) || (w_udp (wu_w u) && b) || (w_tcp (wu_w u) && d) then length pay else 0 else length pay)]) /\
    wd_net s' = wd_net s /\ wd_packets s' = wd_packets s ++ (if listed e then flat_map (packet_of c e u pay time) (WrSpec.layers_of (wu_w u)) else []) /\
    (forall q, wq_udp (wd_proc q s') = wq_udp (wd_proc q s) /\ wq_subs (wd_proc q s') = wq_subs (wd_proc q s)).
Proof.
  intros R [H A]. cbn [wd_step]. rewrite A. apply end_here in H. rewrite H. destruct (send_view u e pay time a b d (idle _ _ _ _ _ _ R A)) as (w & WR & _). rewrite WR.
  match goal with |- context [packets_of _ ?o] => set (outs := o) end.
  assert (E1 : results_of outs = [if listed e then if (w_shm (wu_w u) && a) || (w_udp (wu_w u) && b) || (w_tcp (wu_w u) && d) then length pay else 0 else length pay]).
  { unfold outs, listed. destruct (em_contents (cn_map (ne_conn e))); [reflexivity|]. apply (results_map (tx_of u pay time)). }
  assert (E2 : packets_of (wu_pub c e u) outs = if listed e then flat_map (packet_of c e u pay time) (WrSpec.layers_of (wu_w u)) else []).
  { unfold outs, listed. destruct (em_contents (cn_map (ne_conn e))); [reflexivity|]. apply (packets_map _ _ _ (tx_of u pay time)). }
  rewrite E1, E2. eexists. split; [reflexivity|]. split; [reflexivity|]. split; [reflexivity|].
  intros q. set (w1 := set_pubs _ _). match goal with |- context [wd_proc q (World ?n ?l ?k)] => change (wd_proc q (World n l k)) with (wd_proc q (wd_set p w1 s)) end. rewrite proc_set. destruct (Nat.eqb p q) eqn:E; [apply Nat.eqb_eq in E; subst q|]; split; reflexivity.
Qed.
Lemma packets_back o s s' ev : good (wd_net s) -> wd_step o s = Some (s', ev) ->
  wd_packets s' = wd_packets s \/ exists p x pay time a b d c e u, o = WdSend p x pay time a b d /\ publisher s p x c e u.
Proof.
  intros G E. destruct o as [o|p1 x1 name id r c|q y name id r c|p1 sd x1 r|p1 x1 pay time a b d|p1 x1 id|q k j|q y o]; cbn [wd_step] in E.
  - left. destruct o as [p1 c|p1 sd x1 name id r|p1 sd x1 r|p1 x1|p1 sd x1|p1 now|p1|p1 k now].
    all: try (rewrite nets_view in E by exact G; injection E as <- <-; reflexivity).
    all: try (injection E as <- <-; reflexivity).
    destruct (aget p1 (nt_procs (wd_net s))) as [q|]; [destruct (nth_error (nt_sent (wd_net s)) k) as [m|]|]; rewrite nets_view in E by exact G; injection E as <- <-; reflexivity.
  - left. destruct (aget p1 (nt_procs (wd_net s))); [destruct (wd_end PubSide p1 x1 s)|]; try (injection E as <- <-; reflexivity). rewrite nets_view in E by exact G; injection E as <- <-; reflexivity.
  - left. destruct (aget q (nt_procs (wd_net s))); [destruct (wd_end SubSide q y s)|]; try (injection E as <- <-; reflexivity). rewrite nets_view in E by exact G; injection E as <- <-; reflexivity.
  - left. destruct sd; [|destruct (aget x1 (wq_subs (wd_proc p1 s))) as [[? ?]|]; [|injection E as <- <-; reflexivity]]; rewrite nets_view in E by exact G; injection E as <- <-; reflexivity.
  - destruct (wd_end PubSide p1 x1 s) as [[c e]|] eqn:W; [|injection E as <- <-; left; reflexivity]. destruct (aget x1 (wq_pubs (wd_proc p1 s))) as [u|] eqn:U; [|injection E as <- <-; left; reflexivity].
    right. apply end_here in W. exists p1, x1, pay, time, a, b, d, c, e, u. split; [reflexivity|split; assumption].
  - left. destruct (aget x1 (wq_pubs (wd_proc p1 s))) as [u|]; [|injection E as <- <-; reflexivity]. destruct (w_step _ _ _) as [[w out]|]; [|discriminate]. injection E as <- <-. reflexivity.
  - left. destruct (aget q (nt_procs (wd_net s))) as [n|]; [|injection E as <- <-; reflexivity]. destruct (nth_error (wd_packets s) k) as [pk|]; [|injection E as <- <-; reflexivity].
    cbv zeta in E. destruct (wq_hear (hf_gate (np_sub n)) j pk (wd_proc q s)) as [w xs]. destruct (give_all (hf_gate (np_sub n)) xs (wq_subs w)) as [l outs]. injection E as <- <-. reflexivity.
  - left. destruct (aget y (wq_subs (wd_proc q s))) as [[c r]|]; [|injection E as <- <-; reflexivity].
    destruct o; try (injection E as <- <-; reflexivity); (destruct (rd_step c _ r); injection E as <- <-; reflexivity).
Qed.
Definition from_send (ops : list wdop) (k : packet) (name : text) (m : msg) : Prop :=
  exists a b p x pay time okS okU okT s1 evs1 c e u l,
    ops = a ++ WdSend p x pay time okS okU okT :: b /\ runs a s1 evs1 /\ publisher s1 p x c e u /\ ne_name e = name /\ listed e = true /\ uses u l /\
    m = message e u pay time l /\ In k (packet_of c e u pay time l).
Lemma send_more ops o k name m : from_send ops k name m -> from_send (ops ++ [o]) k name m.
Proof.
  intros (a & b & p & x & pay & time & okS & okU & okT & s1 & evs1 & c & e & u & l & -> & H). exists a, (b ++ [o]), p, x, pay, time, okS, okU, okT, s1, evs1, c, e, u, l.
  rewrite <- app_assoc. auto.
Qed.
Lemma sent_more ops o name m : was_sent ops name m -> was_sent (ops ++ [o]) name m.
Proof.
  intros (a & b & p & x & pay & time & okS & okU & okT & s1 & evs1 & c & e & u & -> & H). exists a, (b ++ [o]), p, x, pay, time, okS, okU, okT, s1, evs1, c, e, u.
  rewrite <- app_assoc. auto.
Qed.
Lemma send_sent ops k name m : from_send ops k name m -> was_sent ops name m.
Proof.
  intros (a & b & p & x & pay & time & okS & okU & okT & s1 & evs1 & c & e & u & l & -> & R & P & N & L & US & -> & _).
  exists a, b, p, x, pay, time, okS, okU, okT, s1, evs1, c, e, u. cbn [message m_layer]. apply listed_iff in L. auto 10.
Qed.
Lemma packets_origin ops s evs k : runs ops s evs -> In k (wd_packets s) -> exists name m, from_send ops k name m.
Proof.
  revert s evs. induction ops as [|o ops IH] using rev_ind; intros s' evs' R I1.
  - apply runs_nil in R. destruct R as [-> ->]. destruct I1.
  - apply runs_snoc in R. destruct R as (s & evs & ev & R & E & ->). pose proof (runs_good _ _ _ R) as G.
    assert (OLD : In k (wd_packets s) -> exists name m, from_send (ops ++ [o]) k name m).
    { intros I0. destruct (IH _ _ R I0) as (name & m & H). exists name, m. apply send_more, H. }
    destruct (packets_back _ _ _ _ G E) as [PB|(p & x & pay & time & a & b & d & c & e & u & -> & P)]; [rewrite PB in I1; auto|].
    destruct (send_step _ _ _ _ _ _ _ _ pay time a b d R P) as (s2 & E2 & _ & PK & _). rewrite E in E2. injection E2 as <- _. rewrite PK in I1. apply in_app_or in I1. destruct I1 as [I1|I1]; [auto|].
    destruct (listed e) eqn:L; [|destruct I1]. apply in_flat_map in I1. destruct I1 as (l & US & I1). exists (ne_name e), (message e u pay time l).
    exists ops, [], p, x, pay, time, a, b, d, s, evs, c, e, u, l. auto 12.
Qed.
Lemma hear_from ops k name m g j q : usual ops -> from_send ops k name m -> wq_udp q = Listening ->
  wq_udp (fst (wq_hear g j k q)) = Listening /\ wq_subs (fst (wq_hear g j k q)) = wq_subs q /\ wq_pubs (fst (wq_hear g j k q)) = wq_pubs q /\ hears_as g name m (snd (wq_hear g j k q)).
Proof.
  intros [F LN] (a & b & p & x & pay & time & okS & okU & okT & s1 & evs1 & c & e & u & l & -> & R & P & <- & L & US & -> & I1) W.
  apply Forall_app in F. destruct F as [F1 F2]. apply Forall_inv in F2. cbn in F2. destruct F2 as [F2 F3]. rewrite app_length in LN. cbn [length] in LN.
  apply (hear_packet (length a) c e u pay time l); auto; [eapply values; eauto|lia].
Qed.

(** ** Receiving *)
Definition outs_y (y : nat) (l : list (nat * rout)) : list rout := flat_map (fun x => if Nat.eqb (fst x) y then [snd x] else []) l.
Lemma outs_y_app y a b : outs_y y (a ++ b) = outs_y y a ++ outs_y y b. Proof. apply flat_map_app. Qed.
Lemma outs_y_pair y z l : outs_y y (map (pair z) l) = if Nat.eqb z y then l else [].
Proof. unfold outs_y. induction l as [|o l IH]; cbn [map flat_map fst snd]; [destruct (Nat.eqb z y); reflexivity|]. rewrite IH. destruct (Nat.eqb z y); reflexivity. Qed.
Lemma outs_packet q q' y l : outs_at q' y (map (fun x => EvOut q (fst x) (snd x)) l) = if Nat.eqb q q' then outs_y y l else [].
Proof.
  unfold outs_at, outs_y. induction l as [|o l IH]; cbn [map flat_map]; [destruct (Nat.eqb q q'); reflexivity|]. rewrite IH. destruct (Nat.eqb q q'), (Nat.eqb (fst o) y); reflexivity.
Qed.
Lemma outs_user q q' y y' l : outs_at q' y' (map (EvOut q y) l) = if (Nat.eqb q q' && Nat.eqb y y')%bool then l else [].
Proof. unfold outs_at. induction l as [|o l IH]; cbn [map flat_map]; [destruct (_ && _)%bool; reflexivity|]. rewrite IH. destruct (_ && _)%bool; reflexivity. Qed.
Lemma give_view m y : forall ys l, NoDup ys ->
  aget y (fst (give m ys l)) = (match aget y l with Some (c, r) => Some (c, if mem ys y then fst (rd_apply c m r) else r) | None => None end) /\
  outs_y y (snd (give m ys l)) = (if mem ys y then match aget y l with Some (c, r) => snd (rd_apply c m r) | None => [] end else []).
Proof.
  induction ys as [|z ys IH]; intros l ND; cbn [give].
  - cbn. destruct (aget y l) as [[c r]|]; auto.
  - inversion ND as [|? ? NI ND']; subst. assert (MX : mem (z :: ys) y = (Nat.eqb y z || mem ys y)%bool) by reflexivity. rewrite MX.
    destruct (aget z l) as [[c r]|] eqn:Z.
    + destruct (rd_apply c m r) as [r' out] eqn:A. destruct (IH (aset z (c, r') l) ND') as [I1 I2]. destruct (give m ys (aset z (c, r') l)) as [l' outs]. cbn [fst snd] in *.
      rewrite outs_y_app, outs_y_pair, I1, I2, aget_aset. destruct (Nat.eqb y z) eqn:E.
      * apply Nat.eqb_eq in E. subst z. rewrite eqb_refl, Nat.eqb_refl, Z, A. cbn [orb fst snd]. assert (M : mem ys y = false).
        { destruct (mem ys y) eqn:M; [|reflexivity]. apply mem_in in M. contradiction. }
        rewrite M, app_nil_r. auto.
      * rewrite Nat.eqb_sym, E. apply Nat.eqb_neq in E. rewrite neq_eqb by congruence. cbn [orb app]. auto.
    + destruct (IH l ND') as [I1 I2]. rewrite I1, I2. destruct (Nat.eqb y z) eqn:E; [|auto]. apply Nat.eqb_eq in E. subst z. rewrite Z. cbn [orb]. destruct (mem ys y); auto.
Qed.
Lemma range_none g name : has_sample g name = false -> gt_range name g = [].
Proof.
  unfold has_sample, gt_range. induction (gt_map g) as [|e l IH]; cbn; [reflexivity|]. intros H. apply orb_false_elim in H. destruct H as [-> H]. auto.
Qed.
Lemma give_heard T h name m xs l : hgood T h -> hears_as (hf_gate h) name m xs -> give_all (hf_gate h) xs l = give m (gt_range name (hf_gate h)) l.
Proof.
  intros G [-> | [HS ->]].
  - cbn [give_all fst snd]. rewrite (gate_on _ _ G). destruct (give m _ l) as [l1 o1]. rewrite app_nil_r. reflexivity.
  - rewrite range_none by exact HS. reflexivity.
Qed.
(** What one operation does with a subscriber. *)
Inductive sub_next (ops : list wdop) (o : wdop) (s : world) (q y : nat) : option (rcfg * reader) -> list rout -> Prop :=
| sn_same : o <> WdNet (NDestroy q SubSide y) -> (forall name id r c n, o = WdSub q y name id r c -> aget q (nt_procs (wd_net s)) = Some n -> wd_end SubSide q y s <> None) ->
    sub_next ops o s q y (aget y (wq_subs (wd_proc q s))) []
| sn_gone : o = WdNet (NDestroy q SubSide y) -> sub_next ops o s q y None []
| sn_new name id r c n : o = WdSub q y name id r c -> aget q (nt_procs (wd_net s)) = Some n -> wd_end SubSide q y s = None -> sub_next ops o s q y (Some (c, rd_new)) []
| sn_user o' c r : o = WdUser q y o' -> aget y (wq_subs (wd_proc q s)) = Some (c, r) -> (forall m, o' <> RArrive m) -> o' <> RStop ->
    sub_next ops o s q y (Some (c, fst (rd_step c o' r))) (snd (rd_step c o' r))
| sn_arrive k j c0 e c r pk m : o = WdPacket q k j -> nth_error (wd_packets s) k = Some pk -> here (wd_net s) q SubSide y c0 e -> aget y (wq_subs (wd_proc q s)) = Some (c, r) -> from_send ops pk (ne_name e) m ->
    sub_next ops o s q y (Some (c, fst (rd_apply c m r))) (snd (rd_apply c m r)).
Ltac same := apply sn_same; [discriminate|intros; discriminate].
Lemma subs_step ops s evs o s' ev q y : usual ops -> runs ops s evs -> (forall q, wq_udp (wd_proc q s) = Listening) -> wd_step o s = Some (s', ev) ->
  sub_next ops o s q y (aget y (wq_subs (wd_proc q s'))) (outs_at q y ev) /\ wq_udp (wd_proc q s') = Listening.
Proof.
  intros UO R LI E. pose proof (runs_good _ _ _ R) as G.
  destruct o as [o|p1 x1 name id r c|q1 y1 name id r c|p1 sd x1 r|p1 x1 pay time a b d|p1 x1 id|q1 k j|q1 y1 o].
  - cbn [wd_step] in E. destruct o as [p1 c|p1 sd x1 name id r|p1 sd x1 r|p1 x1|p1 sd x1|p1 now|p1|p1 k now].
    all: try (rewrite nets_view in E by exact G; injection E as <- <-; change (wd_proc q _) with (wd_proc q s); split; [same|apply LI]; fail).
    all: try (injection E as <- <-; split; [same|apply LI]; fail).
    + rewrite nets_view in E by exact G. injection E as <- <-. set (w := match sd with PubSide => _ | SubSide => _ end).
      change (wd_proc q _) with (wd_proc q (wd_set p1 w s)). rewrite proc_set. destruct (Nat.eqb p1 q) eqn:P.
      2: { apply Nat.eqb_neq in P. split; [apply sn_same; [intros X; injection X; congruence|intros; discriminate]|apply LI]. }
      apply Nat.eqb_eq in P. subst p1. unfold w. destruct sd; cbn [set_pubs set_subs wq_subs wq_udp]; (split; [|apply LI]); [same|].
      rewrite aget_adel. destruct (eqb y x1) eqn:X; [apply eqb_true in X; subst x1; apply sn_gone; reflexivity|].
      apply eqb_false in X. apply sn_same; [intros Z; injection Z; congruence|intros; discriminate].
    + destruct (aget p1 (nt_procs (wd_net s))) as [n|]; [destruct (nth_error (nt_sent (wd_net s)) k) as [m|]|]; rewrite nets_view in E by exact G; injection E as <- <-.
      2,3: change (wd_proc q _) with (wd_proc q s); split; [same|apply LI].
      set (w := set_pubs _ _). change (wd_proc q _) with (wd_proc q (wd_set p1 w s)). rewrite proc_set.
      destruct (Nat.eqb p1 q) eqn:P; [apply Nat.eqb_eq in P; subst p1|]; (split; [same|apply LI]).
  - cbn [wd_step] in E. destruct (aget p1 (nt_procs (wd_net s))) as [n|]; [destruct (wd_end PubSide p1 x1 s)|].
    1,3: injection E as <- <-; split; [same|apply LI].
    rewrite nets_view in E by exact G. injection E as <- <-. set (w := set_pubs _ _). change (wd_proc q _) with (wd_proc q (wd_set p1 w s)). rewrite proc_set.
    destruct (Nat.eqb p1 q) eqn:P; [apply Nat.eqb_eq in P; subst p1|]; (split; [same|apply LI]).
  - cbn [wd_step] in E. destruct (aget q1 (nt_procs (wd_net s))) as [n|] eqn:Q; [destruct (wd_end SubSide q1 y1 s) eqn:W|].
    1,3: injection E as <- <-; split; [|apply LI]; apply sn_same; [discriminate|]; intros ? ? ? ? ? X; injection X; intros; congruence.
    rewrite nets_view in E by exact G. injection E as <- <-. set (w := set_subs _ _). change (wd_proc q _) with (wd_proc q (wd_set q1 w s)). rewrite proc_set.
    destruct (Nat.eqb q1 q) eqn:P.
    2: { apply Nat.eqb_neq in P. split; [|apply LI]. apply sn_same; [discriminate|]. intros ? ? ? ? ? X; injection X; intros; congruence. }
    apply Nat.eqb_eq in P. subst q1. split; [|apply LI]. cbn [w set_subs wq_subs]. rewrite aget_aset. destruct (eqb y y1) eqn:Y.
    + apply eqb_true in Y. subst y1. eapply sn_new; eauto.
    + apply eqb_false in Y. apply sn_same; [discriminate|]. intros ? ? ? ? ? X; injection X; intros; congruence.
  - cbn [wd_step] in E. destruct sd; [|destruct (aget x1 (wq_subs (wd_proc p1 s))) as [[? ?]|]; [|injection E as <- <-; split; [same|apply LI]]];
      rewrite nets_view in E by exact G; injection E as <- <-; change (wd_proc q _) with (wd_proc q s); (split; [same|apply LI]).
  - assert (X : (forall q, wq_udp (wd_proc q s') = wq_udp (wd_proc q s) /\ wq_subs (wd_proc q s') = wq_subs (wd_proc q s)) /\ outs_at q y ev = []).
    { cbn [wd_step] in E. destruct (wd_end PubSide p1 x1 s) as [[c e]|] eqn:W; [|injection E as <- <-; auto]. destruct (aget x1 (wq_pubs (wd_proc p1 s))) as [u|] eqn:U; [|injection E as <- <-; auto].
      apply end_here in W. destruct (send_step _ _ _ p1 x1 c e u pay time a b d R (conj W U)) as (s2 & E2 & _ & _ & H). cbn [wd_step] in E2. apply end_here in W. rewrite W, U in E2. rewrite E in E2.
      injection E2 as <- ->. auto. }
    destruct X as [X ->]. destruct (X q) as [-> ->]. split; [same|apply LI].
  - cbn [wd_step] in E. destruct (aget x1 (wq_pubs (wd_proc p1 s))) as [u|]; [|injection E as <- <-; split; [same|apply LI]]. destruct (w_step _ _ _) as [[w out]|]; [|discriminate]. injection E as <- <-.
    rewrite proc_set. destruct (Nat.eqb p1 q) eqn:P; [apply Nat.eqb_eq in P; subst p1|]; (split; [same|apply LI]).
  - cbn [wd_step] in E. destruct (aget q1 (nt_procs (wd_net s))) as [n|] eqn:N; [|injection E as <- <-; split; [same|apply LI]].
    destruct (nth_error (wd_packets s) k) as [pk|] eqn:K; [|injection E as <- <-; split; [same|apply LI]].
    destruct (packets_origin _ _ _ pk R (nth_error_In _ _ K)) as (name & m & FS).
    destruct (hear_from ops pk name m (hf_gate (np_sub n)) j (wd_proc q1 s) UO FS (LI q1)) as (H1 & H2 & _ & H4).
    cbv zeta in E. destruct (wq_hear (hf_gate (np_sub n)) j pk (wd_proc q1 s)) as [w xs]. cbn [fst snd] in *.
    pose proof (pg_half _ (G _ _ N) SubSide) as HG. cbn [np_half] in HG. rewrite (give_heard _ _ _ _ _ _ HG H4), H2 in E.
    destruct (give_view m y (gt_range name (hf_gate (np_sub n))) (wq_subs (wd_proc q1 s)) (nodup_range _ _ _ HG)) as [V1 V2].
    destruct (give m _ _) as [l outs]. cbn [fst snd] in *. injection E as <- <-. rewrite proc_set, outs_packet. destruct (Nat.eqb q1 q) eqn:P; [|split; [same|apply LI]].
    apply Nat.eqb_eq in P. subst q1. cbn [set_subs wq_subs wq_udp]. split; [|exact H1]. rewrite V1, V2, (range_spec _ _ _ _ HG). unfold reacts.
    destruct (aget y (hf_ends (np_sub n))) as [e|] eqn:Y.
    + destruct (eqb (ne_name e) name) eqn:NE.
      * apply eqb_true in NE. subst name. destruct (aget y (wq_subs (wd_proc q s))) as [[c r]|] eqn:A; [|rewrite <- A; same].
        eapply sn_arrive; eauto. exists n. auto.
      * destruct (aget y (wq_subs (wd_proc q s))) as [[c r]|] eqn:A; rewrite <- A; same.
    + destruct (aget y (wq_subs (wd_proc q s))) as [[c r]|] eqn:A; rewrite <- A; same.
  - cbn [wd_step] in E. destruct (aget y1 (wq_subs (wd_proc q1 s))) as [[c r]|] eqn:A; [|injection E as <- <-; split; [same|apply LI]].
    assert (U : (forall m, o <> RArrive m) -> o <> RStop -> sub_next ops (WdUser q1 y1 o) s q y (aget y (wq_subs (wd_proc q (wd_set q1 (set_subs (aset y1 (c, fst (rd_step c o r)) (wq_subs (wd_proc q1 s))) (wd_proc q1 s)) s))))
        (outs_at q y (map (EvOut q1 y1) (snd (rd_step c o r)))) /\ wq_udp (wd_proc q (wd_set q1 (set_subs (aset y1 (c, fst (rd_step c o r)) (wq_subs (wd_proc q1 s))) (wd_proc q1 s)) s)) = Listening).
    { intros U1 U2. rewrite proc_set, outs_user. destruct (Nat.eqb q1 q) eqn:P; cbn [andb]; [|split; [same|apply LI]]. apply Nat.eqb_eq in P. subst q1. cbn [set_subs wq_subs wq_udp]. split; [|apply LI].
      rewrite aget_aset. destruct (Nat.eqb y1 y) eqn:Y.
      - apply Nat.eqb_eq in Y. subst y1. rewrite eqb_refl. eapply sn_user; eauto.
      - apply Nat.eqb_neq in Y. rewrite neq_eqb by congruence. same. }
    destruct o; try (injection E as <- <-; split; [same|apply LI]); (match goal with U : context [rd_step c ?o r] |- _ => destruct (rd_step c o r) as [r' out] end; injection E as <- <-; apply U; discriminate).
Qed.
Lemma usual_app a b : usual (a ++ b) -> usual a.
Proof. intros [F L]. apply Forall_app in F. rewrite app_length in L. split; [tauto|lia]. Qed.
Lemma listens ops s evs : usual ops -> runs ops s evs -> forall q, wq_udp (wd_proc q s) = Listening.
Proof.
  revert s evs. induction ops as [|o ops IH] using rev_ind; intros s' evs' U R q.
  - apply runs_nil in R. destruct R as [-> ->]. reflexivity.
  - apply runs_snoc in R. destruct R as (s & evs & ev & R & E & ->). apply usual_app in U as U0.
    apply (subs_step ops s evs o s' ev q 0 U0 R (IH _ _ U0 R) E).
Qed.
(** A subscriber from one state to a later one. *)
Definition followed (ops : list wdop) (name : text) (rc : rcfg) (r r' : reader) (outs : list rout) : Prop :=
  exists os, fst (rd_run rc os r) = r' /\ outs = concat (snd (rd_run rc os r)) /\ (forall m, In m (arrivals os) -> was_sent ops name m) /\ ~ In RStop os.
Lemma followed_nil ops name rc r : followed ops name rc r r [].
Proof. exists []. repeat split; [intros ? []|intros []]. Qed.
Lemma followed_one ops name rc r o : (forall m, In m (arrivals [o]) -> was_sent ops name m) -> o <> RStop -> followed ops name rc r (fst (rd_step rc o r)) (snd (rd_step rc o r)).
Proof.
  intros A S. exists [o]. cbn [rd_run]. destruct (rd_step rc o r) as [r1 out]. cbn. rewrite app_nil_r. split; [reflexivity|]. split; [reflexivity|]. split; [exact A|].
  intros [E|[]]. congruence.
Qed.
Lemma rd_run_parts c a b r : rd_run c (a ++ b) r = (fst (rd_run c b (fst (rd_run c a r))), snd (rd_run c a r) ++ snd (rd_run c b (fst (rd_run c a r)))).
Proof.
  revert r. induction a as [|o a IH]; intros r; cbn [app rd_run].
  - cbn [fst snd app]. destruct (rd_run c b r). reflexivity.
  - destruct (rd_step c o r) as [r1 o1]. rewrite IH. destruct (rd_run c a r1) as [r2 o2]. reflexivity.
Qed.
Lemma followed_app ops name rc r r1 r2 o1 o2 : followed ops name rc r r1 o1 -> followed ops name rc r1 r2 o2 -> followed ops name rc r r2 (o1 ++ o2).
Proof.
  intros (a & A1 & A2 & A3 & A4) (b & B1 & B2 & B3 & B4). exists (a ++ b). rewrite rd_run_parts. cbn [fst snd]. rewrite A1, concat_app, <- A2, <- B2. split; [exact B1|]. split; [reflexivity|].
  split.
  - intros m I1. unfold arrivals in I1. rewrite flat_map_app in I1. apply in_app_or in I1. destruct I1; auto.
  - intros I1. apply in_app_or in I1. tauto.
Qed.
Lemma followed_more ops o name rc r r' outs : followed ops name rc r r' outs -> followed (ops ++ [o]) name rc r r' outs.
Proof. intros (a & A1 & A2 & A3 & A4). exists a. split; [exact A1|]. split; [exact A2|]. split; [|exact A4]. intros m I1. apply sent_more; auto. Qed.
Lemma sub_fwd ops s evs o s' ev q y c e rc r : usual ops -> runs ops s evs -> subscriber s q y c e rc r -> o <> WdNet (NDestroy q SubSide y) -> wd_step o s = Some (s', ev) ->
  exists e' r', subscriber s' q y c e' rc r' /\ ne_name e' = ne_name e /\ followed ops (ne_name e) rc r r' (outs_at q y ev).
Proof.
  intros U R [H A] ND E. pose proof (runs_good _ _ _ R) as G.
  assert (HN : exists e', here (wd_net s') q SubSide y c e' /\ ne_name e' = ne_name e).
  { rewrite (step_net _ _ _ _ G E). unfold net_after. destruct (nop_of o s) as [o'|] eqn:NO; [|eauto].
    destruct (here_fwd o' _ _ _ _ _ _ G H) as (e' & H' & M & _); [|eauto].
    intros ->. apply ND. destruct o as [o|p1 x1 n1 i1 r1 c1|q1 y1 n1 i1 r1 c1|p1 sd x1 r1|p1 x1 pay time a b d|p1 x1 i1|q1 k j|q1 y1 o]; cbn [nop_of] in NO; try discriminate.
    - destruct o; try discriminate; injection NO as -> -> ->; reflexivity.
    - destruct (aget p1 (nt_procs (wd_net s))); [|discriminate]. destruct (wd_end PubSide p1 x1 s); discriminate.
    - destruct (aget q1 (nt_procs (wd_net s))); [|discriminate]. destruct (wd_end SubSide q1 y1 s); discriminate.
    - destruct sd; [discriminate|]. destruct (aget x1 (wq_subs (wd_proc p1 s))) as [[? ?]|]; discriminate. }
  destruct HN as (e' & H' & NE). destruct (subs_step ops s evs o s' ev q y U R (listens _ _ _ U R) E) as [SN _].
  inversion SN as [X1 X2 X3 X4|X1 X3 X4|name id r0 c0 n X1 X2 X3 X4 X5|o' c0 r0 X1 X2 X3 X4 X5 X6|k j c0 e0 c1 r0 pk m X1 XK X2 X3 X4 X5 X6].
  - exists e', r. split; [split; [exact H'|congruence]|]. split; [exact NE|apply followed_nil].
  - contradiction.
  - apply end_here in H. congruence.
  - rewrite A in X2. injection X2 as <- <-. exists e', (fst (rd_step rc o' r)). split; [split; [exact H'|congruence]|]. split; [exact NE|]. apply followed_one; [|exact X4].
    destruct o'; cbn; try tauto. destruct (X3 m eq_refl).
  - rewrite A in X3. injection X3 as <- <-. exists e', (fst (rd_apply rc m r)). split; [split; [exact H'|congruence]|]. split; [exact NE|].
    assert (e0 = e) as ->. { apply end_here in H. apply end_here in X2. rewrite H in X2. injection X2. auto. }
    apply (followed_one ops (ne_name e) rc r (RArrive m)); [|discriminate]. intros m' [<-|[]]. apply send_sent in X4. exact X4.
Qed.
Lemma outs_at_app q y a b : outs_at q y (a ++ b) = outs_at q y a ++ outs_at q y b. Proof. apply flat_map_app. Qed.
Lemma sub_run a b s evs s' evs' q y c e rc r : usual (a ++ b) -> runs a s evs -> subscriber s q y c e rc r -> ~ In (WdNet (NDestroy q SubSide y)) b -> runs (a ++ b) s' evs' ->
  exists e' r' evb, evs' = evs ++ evb /\ subscriber s' q y c e' rc r' /\ ne_name e' = ne_name e /\ followed (a ++ b) (ne_name e) rc r r' (outs_at q y evb).
Proof.
  intros U R S0. revert s' evs' U. induction b as [|o b IH] using rev_ind; intros s' evs' U NI R'.
  - rewrite app_nil_r in *. destruct (runs_fun _ _ _ _ _ R R') as [-> ->]. exists e, r, []. rewrite app_nil_r. split; [reflexivity|]. split; [exact S0|]. split; [reflexivity|apply followed_nil].
  - rewrite app_assoc in *. apply usual_app in U as U0. pose proof R' as R2. apply runs_snoc in R2. destruct R2 as (s2 & evs2 & ev & R2 & E & ->).
    destruct (IH _ _ U0 (fun I1 => NI (in_or_app _ _ _ (or_introl I1))) R2) as (e1 & r1 & evb & -> & S1 & N1 & F1).
    destruct (sub_fwd _ _ _ o s' ev q y c e1 rc r1 U0 R2 S1) as (e2 & r2 & S2 & N2 & F2); [|exact E|].
    { intros ->. apply NI, in_or_app. right. now left. }
    exists e2, r2, (evb ++ ev). rewrite app_assoc, outs_at_app. split; [reflexivity|]. split; [exact S2|]. split; [congruence|]. rewrite <- N1 at 1.
    apply followed_more. apply (followed_app _ _ _ _ r1); [rewrite N1; exact F1|exact F2].
Qed.
(** The story of a subscriber. *)
Lemma new_sub o s q y name id r : nop_of o s = Some (NCreate q SubSide y name id r) -> exists c r0, o = WdSub q y name id r0 c /\ wd_end SubSide q y s = None.
Proof.
  intros NO. destruct o as [o|p1 x1 n1 i1 r1 c1|q1 y1 n1 i1 r1 c1|p1 sd x1 r1|p1 x1 pay time a b d|p1 x1 i1|q1 k j|q1 y1 o]; cbn [nop_of] in NO; try discriminate.
  - destruct o; discriminate.
  - destruct (aget p1 (nt_procs (wd_net s))); [|discriminate]. destruct (wd_end PubSide p1 x1 s) eqn:W; discriminate.
  - destruct (aget q1 (nt_procs (wd_net s))); [|discriminate]. destruct (wd_end SubSide q1 y1 s) eqn:W; [discriminate|]. injection NO as -> -> -> -> _. eauto.
  - destruct sd; [discriminate|]. destruct (aget x1 (wq_subs (wd_proc p1 s))) as [[? ?]|]; discriminate.
Qed.
Lemma sub_story ops s evs q y c e rc r : usual ops -> runs ops s evs -> subscriber s q y c e rc r -> exists outs, followed ops (ne_name e) rc rd_new r outs.
Proof.
  revert s evs e r. induction ops as [|o ops IH] using rev_ind; intros s' evs' e' r' U R [H A].
  - apply runs_nil in R. destruct R as [-> ->]. discriminate.
  - apply runs_snoc in R. destruct R as (s & evs & ev & R & E & ->). apply usual_app in U as U0. pose proof (runs_good _ _ _ R) as G.
    destruct (subs_step ops s evs o s' ev q y U0 R (listens _ _ _ U0 R) E) as [SN _]. rewrite A in SN.
    destruct (here_net _ _ _ _ _ _ _ _ _ G E H) as [(e & HE & NN & _)|(name & id & r & NO & -> & (q1 & Q1 & C1))].
    + assert (OLD : forall r, aget y (wq_subs (wd_proc q s)) = Some (rc, r) -> exists outs, followed ops (ne_name e) rc rd_new r outs).
      { intros r A0. exact (IH _ _ _ _ U0 R (conj HE A0)). }
      rewrite NN. inversion SN as [X1 X2 X3 X4|X1 X3 X4|name id r0 c0 n X1 X2 X3 X4 X5|o' c0 r0 X1 X2 X3 X4 X5 X6|k j c0 e0 c1 r0 pk m X1 XK X2 X3 X4 X5 X6].
      * destruct (OLD r') as (outs & F); [congruence|]. exists outs. apply followed_more, F.
      * apply end_here in HE. congruence.
      * subst c0. destruct (OLD _ X2) as (outs & F). eexists. apply followed_more. eapply followed_app; [exact F|]. apply followed_one; [|exact X4].
        destruct o'; cbn; try tauto. destruct (X3 m eq_refl).
      * subst c1. destruct (OLD _ X3) as (outs & F). eexists. apply followed_more. eapply followed_app; [exact F|].
        assert (e0 = e) as ->. { apply end_here in HE. apply end_here in X2. rewrite HE in X2. injection X2. auto. }
        apply (followed_one ops (ne_name e) rc r0 (RArrive m)); [|discriminate]. intros m' [<-|[]]. apply send_sent in X4. exact X4.
    + destruct (new_sub _ _ _ _ _ _ _ NO) as (c1 & r1 & -> & W).
      inversion SN as [X1 X2 X3 X4|X1 X3 X4|name1 id1 r0 c0 n X1 X2 X3 X4 X5|o' c0 r0 X1 X2 X3 X4 X5 X6|k j c0 e0 c2 r0 pk m X1 XK X2 X3 X4 X5 X6]; try discriminate.
      * destruct (X2 _ _ _ _ _ eq_refl Q1 W).
      * exists []. apply followed_nil.
Qed.

(** ** What a subscriber gets *)
Lemma called_at_outs q y evs : called_at q y evs = called (outs_at q y evs). Proof. reflexivity. Qed.
Lemma called_app a b : called (a ++ b) = called a ++ called b. Proof. apply flat_map_app. Qed.
Lemma called_from c os : forall r, within (called (concat (snd (rd_run c os r)))) (taken_from c os r).
Proof.
  induction os as [|o os IH]; intros r; cbn [rd_run taken_from]; [constructor|].
  pose proof (step_called c o r) as SC. specialize (IH (fst (rd_step c o r))). destruct (rd_step c o r) as [r1 o1] eqn:E. cbn [fst snd] in *. destruct (rd_run c os r1) as [r2 o2]. cbn [snd concat] in *. rewrite called_app, SC.
  apply within_app; [|exact IH]. destruct (rd_cb r); [apply within_refl|apply within_nil].
Qed.
Lemma taken_arrived_from c os m : forall r, In m (taken_from c os r) -> In m (arrivals os).
Proof.
  induction os as [|o os IH]; intros r; cbn [taken_from]; [intros []|]. intros I1. apply in_app_or in I1. change (arrivals (o :: os)) with (match o with RArrive m => [m] | _ => [] end ++ arrivals os). apply in_or_app.
  destruct I1 as [I1|I1]; [left|right; eauto]. destruct o; cbn in *; try destruct I1. destruct (takes _ _ _); [exact I1|destruct I1].
Qed.
Lemma true_callback a b s evs s' evs' q y c e rc r m : usual (a ++ b) -> runs a s evs -> subscriber s q y c e rc r -> ~ In (WdNet (NDestroy q SubSide y)) b -> runs (a ++ b) s' (evs ++ evs') ->
  In m (called_at q y evs') -> was_sent (a ++ b) (ne_name e) m.
Proof.
  intros U R S0 NI R' I1. destruct (sub_run _ _ _ _ _ _ _ _ _ _ _ _ U R S0 NI R') as (e' & r' & evb & EE & _ & _ & (os & _ & OU & AR & _)). apply app_inv_head in EE. subst evb.
  rewrite called_at_outs, OU in I1. apply AR. apply (taken_arrived_from rc os m r). exact (within_in _ _ _ (called_from rc os r) I1).
Qed.
Lemma in_order a b s evs s' evs' q y c e rc r tid : usual (a ++ b) -> runs a s evs -> subscriber s q y c e rc r -> ~ In (WdNet (NDestroy q SubSide y)) b -> runs (a ++ b) s' (evs ++ evs') ->
  rc_drop_ooo rc = true -> increasing (clocks_of tid (called_at q y evs')).
Proof.
  intros U R S0 NI R' D. destruct (sub_run _ _ _ _ _ _ _ _ _ _ _ _ U R S0 NI R') as (e' & r' & evb & EE & _ & _ & (os & _ & OU & _ & _)). apply app_inv_head in EE. subst evb.
  destruct (sub_story _ _ _ _ _ _ _ _ _ (usual_app _ _ U) R S0) as (outs & (os0 & R0 & _)). fold (rd_after rc os0) in R0. rewrite called_at_outs, OU.
  apply (within_increasing _ (clocks_of tid (taken rc (os0 ++ os)))); [|apply increasing_lemma, D]. unfold clocks_of. apply within_map, within_filter.
  unfold taken. rewrite taken_from_app. fold (rd_after rc os0). rewrite R0. 
  change (called (concat (snd (rd_run rc os r)))) with ([] ++ called (concat (snd (rd_run rc os r)))). apply within_app; [apply within_nil|apply called_from].
Qed.
Lemma true_read a s evs q y c e rc r s' evs' bs time : usual a -> runs a s evs -> subscriber s q y c e rc r -> wd_step (WdUser q y RRead) s = Some (s', evs') ->
  In (EvOut q y (RORead (Some (bs, time)))) evs' -> exists m, was_sent a (ne_name e) m /\ m_payload m = bs /\ m_time m = time.
Proof.
  intros U R S0 E I1. destruct (sub_story _ _ _ _ _ _ _ _ _ U R S0) as (outs & (os & R0 & _ & AR & NS)). fold (rd_after rc os) in R0. destruct S0 as [H A].
  cbn [wd_step rd_step] in E. rewrite A in E. destruct (rd_read r) as [r1 x] eqn:RR. injection E as <- <-. destruct I1 as [I1|[]]. injection I1 as ->.
  assert (RL : snd (rd_read (rd_after rc os)) = Some (bs, time)) by (rewrite R0, RR; reflexivity). apply read_lemma in RL as [_ (a1 & m & a2 & -> & _ & -> & -> & _)].
  exists m. split; [|auto]. apply AR. unfold arrivals. rewrite flat_map_app. apply in_or_app. right. now left.
Qed.
