From Coq Require Import List ZArith Bool Lia.
From Verif Require Import Base Sample PbModel PbSpec PbProofs PbRound PbExt SerModel SerSpec SerProofs WrModel WrSpec WrProofs RdModel RdSpec RdProofs
  UdpModel UdpSpec UdpProofs TcpModel TcpSpec TcpProofs GateModel GateProofs E2eModel E2eSpec.
From Verif Require ShmModel ShmProofs.
Import ListNotations.

(** ** The writer *)
Lemma sends_app a b : sends (a ++ b) = sends a + sends b.
Proof. unfold sends. now rewrite filter_app, app_length. Qed.
Lemma transmits_sound p calls t : transmits p calls t ->
  exists n pay time id, nth_send calls n pay time id /\ t = same_message (p_cfg p) id n pay time (tx_layer t).
Proof.
  intros (w & outs & R & I). revert w outs R I. induction calls as [|o os IH] using rev_ind; intros w outs R I.
  { cbn in R. injection R as <- <-. destruct I. }
  assert (G : forall w0 o0, w_run (p_cfg p) (wcalls os) (w_new (p_cfg p)) = Some (w0, o0) -> In (WTx t) o0 ->
    exists n pay time id, nth_send (os ++ [o]) n pay time id /\ t = same_message (p_cfg p) id n pay time (tx_layer t)).
  { intros w0 o0 R0 I0. destruct (IH _ _ R0 I0) as (n & pay & time & id & (a & b & x & y & z & E & E1 & E2) & H).
    exists n, pay, time, id. split; [|exact H]. exists a, (b ++ [o]), x, y, z. rewrite E, <- app_assoc. auto. }
  unfold wcalls in R. rewrite flat_map_app in R. cbn [flat_map] in R. rewrite app_nil_r, w_run_app in R. fold (wcalls os) in R.
  destruct (w_run (p_cfg p) (wcalls os) (w_new (p_cfg p))) as [[w1 o1]|] eqn:R1; [|discriminate].
  destruct (w_run (p_cfg p) (wcall_ops o) w1) as [[w2 o2]|] eqn:R2; [|discriminate]. injection R as <- <-.
  apply in_app_or in I as [I|I]; [exact (G _ _ eq_refl I)|].
  destruct o as [pay time x y z|now k s|k|now|i].
  - destruct (send_outputs_lemma (p_cfg p) os pay time x y z) as (w3 & o3 & w4 & R3 & _ & A & B & _).
    rewrite R1 in R3. injection R3 as <- <-.
    assert (X : subscribed w1 \/ ~ subscribed w1).
    { unfold subscribed. destruct (ExpMapModel.em_contents (ConnModel.cn_map (w_conn w1))); [right; auto|left; discriminate]. }
    destruct X as [X|X].
    + rewrite (A X) in R2. injection R2 as <- <-. apply in_app_or in I as [I|[I|[]]]; [|discriminate].
      apply in_map_iff in I as (l & E & _). injection E as E. exists (S (sends os)), pay, time, (id_after os). split.
      * exists os, [], x, y, z. auto.
      * subst t. reflexivity.
    + rewrite (B X) in R2. injection R2 as <- <-. destruct I as [I|[]]. discriminate.
  - cbn [wcall_ops w_run w_step] in R2. destruct (w_sub _ _ _ _ _); [|discriminate]. injection R2 as <- <-. destruct I.
  - cbn [wcall_ops w_run w_step] in R2. destruct (ConnModel.micro_run _ _ _); [|discriminate]. injection R2 as <- <-. destruct I.
  - cbn [wcall_ops w_run w_step] in R2. destruct (ConnModel.micro_run _ _ _); [|discriminate]. injection R2 as <- <-. destruct I.
  - cbn in R2. injection R2 as <- <-. destruct I.
Qed.
Lemma nth_send_bound calls n pay time id : nth_send calls n pay time id -> 0 < n <= sends calls.
Proof. intros (a & b & x & y & z & -> & -> & _). rewrite sends_app. cbn. lia. Qed.
Lemma nth_send_unique calls n pay time id pay' time' id' :
  nth_send calls n pay time id -> nth_send calls n pay' time' id' -> pay = pay' /\ time = time' /\ id = id'.
Proof.
  intros (a & b & x & y & z & E & N & D) (a' & b' & x' & y' & z' & E' & N' & D'). rewrite E in E'. rewrite N in N'. injection N' as N'. subst id id'.
  clear E N. revert a' E' N'. 
  assert (G : forall a a', a ++ CSend pay time x y z :: b = a' ++ CSend pay' time' x' y' z' :: b' -> sends a = sends a' -> a = a' /\ pay = pay' /\ time = time').
  { clear a. induction a as [|o a IH]; intros [|o' a'] E N.
    - injection E. auto.
    - injection E as <- E. cbn in N. discriminate.
    - injection E as -> E. cbn in N. discriminate.
    - injection E as <- E. cbn in N. destruct (IH a') as (-> & -> & ->); auto. destruct o; cbn in N; unfold sends; lia. }
  intros a' E' N'. destruct (G _ _ E' N') as (-> & -> & ->). auto.
Qed.

(** ** Shared memory *)
Definition wmsg (w : ShmModel.wphase) : list ShmModel.msg :=
  match w with
  | ShmModel.WPrepared m | ShmModel.WLocked m | ShmModel.WHeaderDone m | ShmModel.WPayloadDone m _ _ _ | ShmModel.WSyncing m _ _ _ _ => [m]
  | _ => []
  end.
Definition wgood (w : ShmModel.wphase) : Prop := match w with ShmModel.WPayloadDone _ _ good _ => good = true | _ => True end.
Ltac shm_cases H := repeat match type of H with
  | Some _ = Some _ => fail 1
  | None = Some _ => discriminate
  | context [match ?x with _ => _ end] => lazymatch x with context [match _ with _ => _ end] => fail | _ => destruct x eqn:? end
  end.
Lemma recreate_w s nm f z ok : ShmModel.s_w (fst (ShmModel.recreate s nm f z ok)) = ShmModel.s_w s.
Proof. reflexivity. Qed.
Lemma recreate_ev s nm f z ok nm' h pay full good : ~ In (ShmModel.EvWritten nm' h pay full good) (snd (ShmModel.recreate s nm f z ok)).
Proof.
  unfold ShmModel.recreate. cbn [snd]. destruct ok; [|easy]. intros [E|E]; [discriminate|]. apply in_map_iff in E as (? & E & _). discriminate.
Qed.
Definition shm_good s s' ev op :=
  (forall m, In m (wmsg (ShmModel.s_w s')) -> In m (wmsg (ShmModel.s_w s)) \/ exists e ok, op = ShmModel.SPrepare m e ok) /\
  (wgood (ShmModel.s_w s) -> (forall j, op <> ShmModel.SPayload (Some j)) -> wgood (ShmModel.s_w s')) /\
  (forall nm h pay full good, In (ShmModel.EvWritten nm h pay full good) ev ->
     exists m, In m (wmsg (ShmModel.s_w s)) /\ h = ShmModel.hdr_of m /\ pay = ShmModel.m_pay m /\ (wgood (ShmModel.s_w s) -> good = true)).
Lemma shm_quiet s s' ev op : ShmModel.s_w s' = ShmModel.s_w s -> (forall nm h pay full good, ~ In (ShmModel.EvWritten nm h pay full good) ev) -> shm_good s s' ev op.
Proof. intros E N. unfold shm_good. rewrite E. split; [auto|]. split; [auto|]. intros ? ? ? ? ? I. destruct (N _ _ _ _ _ I). Qed.
Lemma shm_moves s s' ev op : (forall m, In m (wmsg (ShmModel.s_w s')) -> In m (wmsg (ShmModel.s_w s)) \/ exists e ok, op = ShmModel.SPrepare m e ok) ->
  (wgood (ShmModel.s_w s) -> (forall j, op <> ShmModel.SPayload (Some j)) -> wgood (ShmModel.s_w s')) -> (forall nm h pay full good, ~ In (ShmModel.EvWritten nm h pay full good) ev) -> shm_good s s' ev op.
Proof. intros E E' N. split; [auto|]. split; [auto|]. intros ? ? ? ? ? I. destruct (N _ _ _ _ _ I). Qed.
Ltac noev := let E := fresh in intros ? ? ? ? ? E; cbn in E; repeat (destruct E as [E|E]; [discriminate|]); destruct E.
Lemma some_pair {X : Type} (a b : X) : Some a = Some b -> a = b.
Proof. congruence. Qed.
Lemma shm_step op s s' ev : ShmModel.sh_step op s = Some (s', ev) -> shm_good s s' ev op.
Proof.
  destruct op; cbn [ShmModel.sh_step]; cbv zeta; intros H; shm_cases H; try discriminate.
  all: try (injection H as <- <-; apply shm_quiet; [cbn; congruence|noev]; fail).
  all: try (injection H as <- <-; apply shm_moves; [cbn; rewrite ?Heqw; cbn; intuition eauto|cbn; auto|noev]; fail).
  - apply some_pair in H. match type of H with ?X = _ => assert (E1 := recreate_w _ _ _ _ _ : ShmModel.s_w (fst X) = _); pose proof (recreate_ev _ _ _ _ _ : forall a b c d e, ~ In (ShmModel.EvWritten a b c d e) (snd X)) as E2 end.
    rewrite H in E1, E2. cbn [fst snd] in *. apply shm_moves; [|rewrite E1; cbn; auto|exact E2]. rewrite E1. intros x [<-|[]]. eauto.
  - injection H as <- <-. apply shm_moves; [|cbn; auto|noev]. intros x [<-|[]]. eauto.
  - injection H as <- <-. apply shm_moves; [|cbn; auto|noev]. intros x [<-|[]]. eauto.
  - match goal with E : ShmModel.recreate ?a ?b ?c ?d ?e = (?x, ?y) |- _ => pose proof (recreate_w a b c d e) as E1; pose proof (recreate_ev a b c d e) as E2; rewrite E in E1, E2 end.
    injection H as <- <-. apply shm_moves; [cbn; rewrite Heqw; cbn; auto|cbn; auto|].
    intros ? ? ? ? ? I. apply in_app_or in I as [I|[I|[]]]; [exact (E2 _ _ _ _ _ I)|discriminate].
  - match goal with E : ShmModel.recreate ?a ?b ?c ?d ?e = (?x, ?y) |- _ => pose proof (recreate_w a b c d e) as E1; pose proof (recreate_ev a b c d e) as E2; rewrite E in E1, E2 end.
    injection H as <- <-. apply shm_moves; [cbn; rewrite Heqw; cbn; auto|cbn; auto|exact E2].
  - injection H as <- <-. apply shm_moves; [cbn; rewrite Heqw; cbn; auto| |noev]. intros _ J. cbn. destruct junk as [j|]; [destruct (J j eq_refl)|reflexivity].
  - injection H as <- <-. split; [cbn; rewrite Heqw; cbn; auto|]. split; [cbn; auto|].
    intros ? ? ? ? ? I. rewrite Heqw. cbn [wmsg]. exists m. destruct I as [I|I].
    + injection I as <- <- <- <- <-. split; [now left|]. cbn. auto.
    + destruct (negb _); [destruct I as [I|[]]; discriminate|destruct I].
Qed.
Lemma shm_run ops : forall s s' tr, ShmModel.sh_run ops s = Some (s', tr) -> wgood (ShmModel.s_w s) -> (forall j, ~ In (ShmModel.SPayload (Some j)) ops) ->
  forall nm h pay full good, In (ShmModel.EvWritten nm h pay full good) tr ->
  good = true /\ exists m, h = ShmModel.hdr_of m /\ pay = ShmModel.m_pay m /\ (In m (wmsg (ShmModel.s_w s)) \/ exists e ok, In (ShmModel.SPrepare m e ok) ops).
Proof.
  induction ops as [|op ops IH]; intros s s' tr R G J nm h pay full good I; cbn in R.
  { injection R as <- <-. destruct I. }
  destruct (ShmModel.sh_step op s) as [[s1 e1]|] eqn:E; [|discriminate]. destruct (ShmModel.sh_run ops s1) as [[s2 e2]|] eqn:R'; [|discriminate].
  injection R as <- <-. destruct (shm_step _ _ _ _ E) as (A & B & C). apply in_app_or in I as [I|I].
  - destruct (C _ _ _ _ _ I) as (m & D1 & D2 & D3 & D4). split; [auto|]. exists m. auto.
  - destruct (IH _ _ _ R' (B G (fun j X => J j (or_introl X))) (fun j X => J j (or_intror X)) _ _ _ _ _ I) as (D1 & m & D2 & D3 & D4). split; [exact D1|].
    exists m. split; [exact D2|]. split; [exact D3|]. destruct D4 as [D4|(e & ok & D4)]; [|right; exists e, ok; now right].
    destruct (A m D4) as [D5|(e & ok & ->)]; [now left|]. right. exists e, ok. now left.
Qed.
Lemma shm_handed_sound p calls h bs : shm_handed p calls h bs -> exists t, transmits p calls t /\ tx_layer t = tl_shm /\ tx_bytes t = Some bs /\
  ShmModel.h_id h = WrModel.tx_id t /\ ShmModel.h_clock h = WrModel.tx_clock t /\ ShmModel.h_time h = WrModel.tx_time t /\ ShmModel.h_hash h = WrModel.tx_hash t.
Proof.
  intros (n & min & ops & s & tr & pid & nm & N & R & M & J & I).
  assert (G : forall x g pay full good, In (ShmModel.EvWritten x g pay full good) tr -> good = true /\ exists m, g = ShmModel.hdr_of m /\ pay = ShmModel.m_pay m /\ exists e ok, In (ShmModel.SPrepare m e ok) ops).
  { intros x g pay full good X. destruct (shm_run ops _ _ _ R Logic.I J _ _ _ _ _ X) as (D1 & m & D2 & D3 & D4). split; [exact D1|].
    exists m. split; [exact D2|]. split; [exact D3|]. destruct D4 as [[]|D4]. exact D4. }
  apply in_split in I as (a & b & E).
  destruct (ShmProofs.good_payload_lemma n min ops s tr a pid nm h bs b N R E) as (full & W); [intros; eapply G; eassumption|].
  destruct (G nm h bs full true) as (_ & m & -> & -> & e & ok & P); [rewrite E; apply in_or_app; now left|].
  destruct (M _ _ _ P) as (t & zero & ack & T & L & O). exists t. unfold shm_out in O. destruct (tx_bytes t) as [bs|]; [|discriminate]. injection O as <-. cbn. auto 10.
Qed.

(** ** What arrives *)
Local Open Scope Z_scope.
Lemma cb_size_long tag s : 0 < tag < 2 ^ 29 -> len s < 2 ^ 63 -> len (enc_field tag FCallStr (cb s)) <= len s + 20.
Proof.
  intros T L. pose proof (len_nonneg s). destruct s as [|x s]; [cbn; unfold len; cbn; lia|]. cbn [cb enc_field]. rewrite len_app. unfold enc_string. rewrite len_app.
  pose proof (enc_varint_size (len (x :: s)) ltac:(lia)).
  assert (len (enc_tag wt_string tag) <= 10) by (apply enc_varint_size; unfold wt_string; lia). lia.
Qed.
Lemma tag_size tag : 0 < tag < 2 ^ 29 -> len (enc_tag wt_string tag) <= 10.
Proof. intros H. apply enc_varint_size; unfold wt_string; lia. Qed.
Lemma string_size s : len s < 2 ^ 63 -> len (enc_string s) <= len s + 10.
Proof. intros L. unfold enc_string. rewrite len_app. pose proof (len_nonneg s). pose proof (enc_varint_size (len s) ltac:(lia)). lia. Qed.
Lemma udp_size p t bs : len (p_host p) + len (p_topic p) + len (p_tid p) <= 65000 -> len bs < 2 ^ 31 -> len (ser_payload (udp_sample p t bs)) < 2 ^ 32.
Proof.
  intros L B. pose proof (len_nonneg (p_host p)). pose proof (len_nonneg (p_topic p)). pose proof (len_nonneg (p_tid p)). pose proof (len_nonneg bs).
  unfold udp_sample. set (i := WrModel.tx_id t). set (c := WrModel.tx_clock t). set (ti := WrModel.tx_time t). set (h := to_i64 (WrModel.tx_hash t)). clearbody i c ti h.
  set (tv := pl_topic (cb (p_host p)) (cb (p_tid p)) (cb (p_topic p))). set (cv := [VInt i; VInt c; VInt ti; cb bs; VInt 0; VInt h]).
  assert (E : ser_payload (PSample bct_set_sample (p_host p) (p_tid p) (p_topic p) i c ti h 0 bs []) = enc_field 1 FU32 (VInt 1) ++ (enc_tag wt_string 5 ++ enc_string (enc_msg d_topic tv)) ++
    (enc_tag wt_string 6 ++ enc_string (enc_msg d_content cv)) ++ enc_field 8 FCallStr (VStr [])).
  { unfold ser_payload, d_sample, pb_psample, no_msg. cbn [ps_cmd ps_hname ps_tid ps_tname ps_id ps_clock ps_time ps_hash ps_size ps_payload ps_padding].
    fold tv cv. cbn [enc_msg]. rewrite !enc_field_msg. cbn [enc_field cmd_code Z.eqb app]. rewrite app_nil_r. rewrite <- !app_assoc. reflexivity. }
  assert (T : len (enc_msg d_topic tv) <= 65000 + 60).
  { unfold tv, pl_topic, d_topic. cbn [enc_msg]. rewrite !len_app.
    pose proof (cb_size_long 2 (p_host p) ltac:(lia) ltac:(lia)). pose proof (cb_size_long 6 (p_tid p) ltac:(lia) ltac:(lia)). pose proof (cb_size_long 7 (p_topic p) ltac:(lia) ltac:(lia)).
    generalize dependent (enc_field 2 FCallStr (cb (p_host p))). generalize dependent (enc_field 6 FCallStr (cb (p_tid p))). generalize dependent (enc_field 7 FCallStr (cb (p_topic p))).
    intros. cbn [enc_field Z.eqb]. change (0 =? 0) with true. cbv iota. change (len []) with 0. lia. }
  assert (C : len (enc_msg d_content cv) <= 2 ^ 31 + 120).
  { unfold cv, d_content. cbn [enc_msg]. rewrite !len_app.
    pose proof (num_size 1 FI64 i ltac:(lia) ltac:(auto)). pose proof (num_size 2 FI64 c ltac:(lia) ltac:(auto)). pose proof (num_size 3 FI64 ti ltac:(lia) ltac:(auto)).
    pose proof (num_size 6 FI32 0 ltac:(lia) ltac:(auto)). pose proof (num_size 7 FI64 h ltac:(lia) ltac:(auto)). pose proof (cb_size_long 4 bs ltac:(lia) ltac:(lia)).
    change (len []) with 0. lia. }
  rewrite E. clear E. rewrite !len_app. change (len (enc_field 1 FU32 (VInt 1))) with 2. change (len (enc_field 8 FCallStr (VStr []))) with 2.
  pose proof (tag_size 5 ltac:(lia)). pose proof (tag_size 6 ltac:(lia)). pose proof (string_size (enc_msg d_topic tv) ltac:(lia)). pose proof (string_size (enc_msg d_content cv) ltac:(lia)). lia.
Qed.
Lemma snd_hash_range h n : 0 <= h < 2 ^ 64 -> 0 <= snd_hash h n < 2 ^ 64.
Proof.
  intros H. unfold snd_hash, two64. assert (M : 0 <= Z.modulo (Z.shiftl n 1) (2 ^ 64) < 2 ^ 64) by (apply Z.mod_pos_bound; lia). set (b := Z.modulo _ _) in *. clearbody b.
  assert (N : 0 <= Z.lxor h b) by (apply Z.lxor_nonneg; lia). split; [exact N|].
  destruct (Z.eq_dec (Z.lxor h b) 0) as [E|E]; [rewrite E; lia|]. apply Z.log2_lt_pow2; [lia|].
  pose proof (Z.log2_lxor h b ltac:(lia) ltac:(lia)). 
  assert (forall x, 0 <= x < 2 ^ 64 -> Z.log2 x < 64). { intros x X. destruct (Z.eq_dec x 0) as [->|]; [cbn; lia|]. apply Z.log2_lt_pow2; lia. }
  pose proof (H1 h H). pose proof (H1 b M). lia.
Qed.
Lemma i64_mod z : 0 <= z < 2 ^ 64 -> to_i64 z mod 2 ^ 64 = z.
Proof.
  intros H. destruct (to_i64_same z H) as [-> | ->]; [now apply Z.mod_small|].
  replace (z - 2 ^ 64) with (z + (-1) * 2 ^ 64) by lia. rewrite Z.mod_add by lia. now apply Z.mod_small.
Qed.
(** What a packet becomes. *)
Definition stands (p : pub) (calls : list wcall) (n : nat) (m : msg) : Prop :=
  is_send p calls n m /\ m_hash m = snd_hash (wc_tid_hash (p_cfg p)) (Z.of_nat n).
Lemma hear_ok topic p calls n k nd : ordinary p calls -> carries p calls n k -> nd_udp nd = Listening ->
  nd_udp (fst (hear topic k nd)) = Listening /\ nd_reader (fst (hear topic k nd)) = nd_reader nd /\
  exists m, stands p calls n m /\
    (snd (hear topic k nd) = [(p_topic p, m)] \/ p_topic p <> topic /\ snd (hear topic k nd) = []).
Proof.
  intros (N1 & N2 & NZ & SZ & HH & SB & OR) C L.
  pose proof (len_nonneg (p_host p)). pose proof (len_nonneg (p_topic p)). pose proof (len_nonneg (p_tid p)).
  assert (CL : forall m pay time id, nth_send calls m pay time id -> i64 (Z.of_nat m)) by (intros ? ? ? ? X; apply nth_send_bound in X; unfold i64; lia).
  destruct C as [t k T Y CK O|t k T Y CK O|h bs S CK].
  - destruct (transmits_sound _ _ _ T) as (n' & pay & time & id & X & E). rewrite E in CK. cbn in CK. apply Nat2Z.inj in CK. subst n'.
    destruct (OR _ _ _ _ X) as (B1 & B2 & B3). assert (TB : tx_bytes t = Some pay) by (rewrite E; reflexivity). unfold udp_out in O. rewrite TB in O. injection O as <-.
    unfold hear. rewrite L. cbn [rx_step]. rewrite round_trip; [|exact NZ|unfold len in *; lia].
    pose proof (snd_hash_range _ (Z.of_nat n) HH) as HR.
    assert (MO : message_of tl_udp (ser_payload (udp_sample p t pay)) =
      Some (p_topic p, Msg (p_tid p) pay id (Z.of_nat n) time (snd_hash (wc_tid_hash (p_cfg p)) (Z.of_nat n)) tl_udp)).
    { rewrite message_ok; [|unfold wf_psample, udp_sample; cbn [ps_cmd ps_id ps_clock ps_time ps_hash ps_size]; rewrite E; cbn [same_message WrModel.tx_id WrModel.tx_clock WrModel.tx_time WrModel.tx_hash]|now apply udp_size|reflexivity].
      - unfold udp_sample. cbn [ps_tname ps_tid ps_payload ps_id ps_clock ps_time ps_hash]. rewrite E. cbn [same_message WrModel.tx_id WrModel.tx_clock WrModel.tx_time WrModel.tx_hash]. now rewrite i64_mod.
      - split; [discriminate|]. repeat split; try apply B2; try apply B3; try apply (CL _ _ _ _ X); try apply to_i64_range; lia. }
    destruct (eqb topic (p_topic p)) eqn:Q.
    + apply eqb_true in Q. subst topic. cbn [flat_map fst snd nd_udp nd_reader]. rewrite MO. split; [reflexivity|]. split; [reflexivity|].
      eexists. split; [|left; reflexivity]. split; [|reflexivity]. repeat split. exact X.
    + cbn. split; [reflexivity|]. split; [reflexivity|].
      exists (Msg (p_tid p) pay id (Z.of_nat n) time (snd_hash (wc_tid_hash (p_cfg p)) (Z.of_nat n)) tl_udp).
      split; [split; [repeat split; exact X|reflexivity]|]. right. split; [|reflexivity]. apply eqb_false in Q. congruence.
  - destruct (transmits_sound _ _ _ T) as (n' & pay & time & id & X & E). rewrite E in CK. cbn in CK. apply Nat2Z.inj in CK. subst n'.
    destruct (OR _ _ _ _ X) as (B1 & B2 & B3). unfold tcp_out in O. rewrite E in O. cbn [same_message WrModel.tx_id WrModel.tx_clock WrModel.tx_time WrModel.tx_hash tx_bytes] in O.
    set (tm := TMsg _ _ _ _ _) in O. destruct (tcp_frame (p_topic p) (p_tid p) tm) as [f|] eqn:F; [|discriminate]. injection O as <-.
    pose proof (snd_hash_range _ (Z.of_nat n) HH) as HR.
    assert (W : wf_tmsg tm) by (split; [exact B3|split; [exact (CL _ _ _ _ X)|split; [exact B2|exact HR]]]).
    destruct (receive_ok (nd_tcp nd) _ _ tm f W B1 F N1 N2) as (x & R & HX). unfold hear. destruct (tcp_receive (nd_tcp nd) f) as [t' r]. cbn [snd] in R. subst r.
    cbn [fst snd nd_udp nd_reader]. split; [exact L|]. split; [reflexivity|].
    destruct HX as (A1 & A2 & A3 & A4 & A5 & A6 & A7 & A8). rewrite A1, A2, A3, A4, A5, A6.
    eexists. split; [|left; reflexivity]. split; [repeat split; exact X|]. cbn [m_hash].
    unfold tm in A8. cbn [tm_hash] in A8. destruct A8 as [-> | ->]; [now apply Z.mod_small|].
    rewrite <- Z.add_opp_r. replace (- 2 ^ 64) with ((-1) * 2 ^ 64) by lia. rewrite Z.mod_add by lia. now apply Z.mod_small.
  - destruct (shm_handed_sound _ _ _ _ S) as (t & T & Y & B & E1 & E2 & E3 & E4). cbn [hear fst snd]. split; [exact L|]. split; [reflexivity|].
    destruct (transmits_sound _ _ _ T) as (n' & pay & time & id & X & E). rewrite E2, E in CK. cbn in CK. apply Nat2Z.inj in CK. subst n'.
    eexists. split; [|left; reflexivity]. rewrite E1, E2, E3, E4, E. rewrite E in B. cbn in B. injection B as <-. split; [|reflexivity]. repeat split. exact X.
Qed.

(** ** The subscriber *)
Local Close Scope Z_scope.
(** The calls of the reader that inputs amount to. *)
Inductive meant (net : network) (topic : text) : list ein -> list rop -> Prop :=
| mt_nil : meant net topic [] []
| mt_own p calls n k m is os : In (p, calls) net -> p_topic p = topic -> carries p calls n k -> stands p calls n m ->
    meant net topic is os -> meant net topic (IPacket k :: is) (RArrive m :: os)
| mt_other k is os : meant net topic is os -> meant net topic (IPacket k :: is) os
| mt_user o is os : (forall m, o <> RArrive m) -> meant net topic is os -> meant net topic (IUser o :: is) (o :: os)
| mt_void m is os : meant net topic is os -> meant net topic (IUser (RArrive m) :: is) os.
Lemma run_meant net topic c : (forall p calls, In (p, calls) net -> ordinary p calls) -> forall is nd, Forall (from_network net) is -> nd_udp nd = Listening ->
  exists os, meant net topic is os /\ nd_reader (fst (nd_run topic c is nd)) = fst (rd_run c os (nd_reader nd)) /\
    snd (nd_run topic c is nd) = concat (snd (rd_run c os (nd_reader nd))).
Proof.
  intros OR is. induction is as [|i is IH]; intros nd F L.
  { exists []. split; [constructor|]. auto. }
  apply Forall_inv in F as F1. apply Forall_inv_tail in F. cbn [nd_run].
  destruct i as [k|o].
  - destruct F1 as (p & calls & n & I & C). destruct (hear_ok topic p calls n k nd (OR _ _ I) C L) as (L1 & R1 & m & ST & X).
    cbn [nd_step]. destruct (hear topic k nd) as [n1 xs]. cbn [fst snd] in *.
    assert (Y : xs = [(p_topic p, m)] /\ p_topic p = topic \/ p_topic p <> topic /\ (xs = [] \/ xs = [(p_topic p, m)])).
    { destruct (eq_dec (p_topic p) topic) as [E|E]; [left|right]; [|tauto]. destruct X as [X|[X _]]; tauto. }
    destruct Y as [[-> E]|[E Y]].
    + cbn [offers]. unfold offer. cbn [fst snd]. rewrite E, eqb_refl. rewrite R1. destruct (rd_apply c m (nd_reader nd)) as [r o] eqn:A.
      destruct (IH (Node (nd_udp n1) (nd_tcp n1) r) F L1) as (os & M & E1 & E2). cbn [nd_reader] in *.
      exists (RArrive m :: os). split; [now apply (mt_own net topic p calls n k m)|].
      cbn [rd_run rd_step]. rewrite A. destruct (nd_run topic c is _) as [n2 o2]. destruct (rd_run c os r) as [r2 os2]. cbn [fst snd concat] in *.
      rewrite app_nil_r. split; [exact E1|now rewrite E2].
    + assert (O : offers topic c xs n1 = (n1, [])).
      { destruct Y as [-> | ->]; [reflexivity|]. cbn [offers]. unfold offer. cbn [fst]. apply neq_eqb in E. now rewrite E. }
      rewrite O. destruct (IH n1 F L1) as (os & M & E1 & E2). rewrite R1 in *.
      exists os. split; [now constructor|]. destruct (nd_run topic c is n1) as [n2 o2]. cbn [fst snd app] in *. auto.
  - destruct o as [m| | | | | | |]; cbn [nd_step];
    match goal with
    | |- context [rd_step c ?o _] =>
        destruct (rd_step c o (nd_reader nd)) as [r ou] eqn:A; destruct (IH (Node (nd_udp nd) (nd_tcp nd) r) F L) as (os & M & E1 & E2); cbn [nd_reader] in *;
        exists (o :: os); (split; [apply mt_user; [discriminate|exact M]|]); cbn [rd_run]; rewrite A;
        destruct (nd_run topic c is _) as [n2 o2]; destruct (rd_run c os r) as [r2 os2]; cbn [fst snd concat] in *; (split; [exact E1|now rewrite E2])
    | _ => idtac
    end.
    destruct (IH nd F L) as (os & M & E1 & E2). exists os. split; [now apply mt_void|]. destruct (nd_run topic c is nd) as [n2 o2]. cbn [fst snd app] in *. auto.
Qed.
Lemma meant_arrivals net topic is os : meant net topic is os -> forall m, In m (arrivals os) ->
  exists p calls n, In (p, calls) net /\ p_topic p = topic /\ stands p calls n m.
Proof.
  induction 1 as [|p calls n k m is os I E C ST M IH|k is os M IH|o is os O M IH|m is os M IH]; intros x X; auto.
  - destruct X.
  - destruct X as [<-|X]; [eauto 10|auto].
  - unfold arrivals in X. cbn [flat_map] in X. fold (arrivals os) in X. apply in_app_or in X as [X|X]; [|auto]. destruct o as [m0| | | | | | |]; [destruct (O m0 eq_refl)|destruct X..].
Qed.

(** The calls of the receive callback are the messages taken while it is set. *)
Lemma run_snoc c os o : snd (rd_run c (os ++ [o]) rd_new) = snd (rd_run c os rd_new) ++ [snd (rd_step c o (rd_after c os))].
Proof.
  unfold rd_after. generalize rd_new. induction os as [|x os IH]; intros r; cbn [app rd_run].
  - destruct (rd_step c o r) eqn:E. cbn. now rewrite E.
  - destruct (rd_step c x r) as [r1 o1]. specialize (IH r1). destruct (rd_run c (os ++ [o]) r1), (rd_run c os r1). cbn [fst snd] in *. now rewrite IH.
Qed.
Lemma step_called c o r : called (snd (rd_step c o r)) = match rd_cb r with Some _ => op_taken c r o | None => [] end.
Proof.
  destruct o as [m| | | | | | |]; cbn [rd_step op_taken].
  2-8: try destruct (rd_read r); try destruct (rd_created r); cbn; now destruct (rd_cb r).
  rewrite apply_outs. unfold called. rewrite !flat_map_app. cbn [flat_map]. rewrite app_nil_r.
  match goal with |- ?a ++ _ = _ => assert (E : a = []) end.
  { destruct (_ && _ && _); [|reflexivity]. now destruct (rd_dropcb r). }
  rewrite E. cbn [app]. destruct (takes c r m), (rd_cb r); reflexivity.
Qed.
Lemma called_snoc c os o : called (concat (snd (rd_run c (os ++ [o]) rd_new))) =
  called (concat (snd (rd_run c os rd_new))) ++ called (snd (rd_step c o (rd_after c os))).
Proof. rewrite run_snoc, concat_app. unfold called. rewrite flat_map_app. cbn [concat]. now rewrite app_nil_r. Qed.
(** A list obtained by leaving out elements. *)
Inductive within {X : Type} : list X -> list X -> Prop :=
| wi_nil : within [] []
| wi_keep x a b : within a b -> within (x :: a) (x :: b)
| wi_skip x a b : within a b -> within a (x :: b).
Lemma within_refl {X} (l : list X) : within l l.
Proof. induction l; constructor; auto. Qed.
Lemma within_nil {X} (l : list X) : within [] l.
Proof. induction l; constructor; auto. Qed.
Lemma within_app {X} (a b a' b' : list X) : within a b -> within a' b' -> within (a ++ a') (b ++ b').
Proof. induction 1; intros H'; cbn; [exact H'|constructor; auto|constructor; auto]. Qed.
Lemma within_in {X} (a b : list X) x : within a b -> In x a -> In x b.
Proof. induction 1; intros I; [destruct I|destruct I as [->|I]; [now left|right; auto]|right; auto]. Qed.
Lemma called_taken c os : within (called (concat (snd (rd_run c os rd_new)))) (taken c os).
Proof.
  induction os as [|o os IH] using rev_ind; [constructor|]. rewrite called_snoc, taken_snoc. apply within_app; [exact IH|]. rewrite step_called.
  destruct (rd_cb _); [apply within_refl|apply within_nil].
Qed.
Lemma taken_arrived c os m : In m (taken c os) -> In m (arrivals os).
Proof.
  induction os as [|o os IH] using rev_ind; [intros []|]. rewrite taken_snoc. intros I. unfold arrivals. rewrite flat_map_app. apply in_or_app.
  apply in_app_or in I as [I|I]; [left; auto|right]. destruct o; cbn in *; try destruct I. destruct (takes _ _ _); [exact I|destruct I].
Qed.
Lemma within_map {X Y} (f : X -> Y) a b : within a b -> within (map f a) (map f b).
Proof. induction 1; cbn; constructor; auto. Qed.
Lemma within_filter {X} (f : X -> bool) a b : within a b -> within (filter f a) (filter f b).
Proof. induction 1; cbn; [constructor|destruct (f x); [constructor; auto|auto]|destruct (f x); [constructor; auto|auto]]. Qed.
Lemma within_split {X} (a b : list X) : within a b -> forall l x r, a = l ++ x :: r -> exists l' r', b = l' ++ x :: r' /\ within l l' /\ within r r'.
Proof.
  induction 1; intros l y r E.
  - destruct l; discriminate.
  - destruct l as [|z l]; injection E as -> E.
    + subst a. exists [], b. split; [reflexivity|]. split; [constructor|exact H].
    + destruct (IHwithin _ _ _ E) as (l' & r' & -> & A & B). exists (z :: l'), r'. split; [reflexivity|]. split; [now constructor|exact B].
  - destruct (IHwithin _ _ _ E) as (l' & r' & -> & A & B). exists (x :: l'), r'. split; [reflexivity|]. split; [now constructor|exact B].
Qed.
Lemma within_increasing a b : within a b -> increasing b -> increasing a.
Proof.
  intros W I l x m y r E. destruct (within_split _ _ W _ _ _ E) as (l' & r' & -> & _ & W2).
  destruct (within_split _ _ W2 _ _ _ eq_refl) as (m' & r'' & -> & _ & _). exact (I l' x m' y r'' eq_refl).
Qed.

(** ** Only what was sent, in order *)
Lemma read_out c os x : In (RORead (Some x)) (concat (snd (rd_run c os rd_new))) -> exists a b, os = a ++ RRead :: b /\ snd (rd_read (rd_after c a)) = Some x.
Proof.
  induction os as [|o os IH] using rev_ind; [intros []|]. rewrite run_snoc, concat_app, in_app_iff. intros [I|I].
  - destruct (IH I) as (a & b & -> & E). exists a, (b ++ [o]). rewrite <- app_assoc. auto.
  - cbn [concat] in I. rewrite app_nil_r in I. destruct o as [m| | | | | | |]; cbn [rd_step] in I.
    + exfalso. rewrite apply_outs in I. apply in_app_or in I as [I|I]; [destruct (_ && _ && _); [destruct (rd_dropcb _); cbn in I; intuition discriminate|destruct I]|].
      apply in_app_or in I as [I|[I|[]]]; [|discriminate]. destruct (takes _ _ _); [|destruct I]. destruct (rd_cb _); cbn in I; intuition discriminate.
    + exists os, []. split; [reflexivity|]. destruct (rd_read (rd_after c os)) as [r y]. destruct I as [I|[]]. injection I as ->. reflexivity.
    + destruct (rd_created _); destruct I as [I|[]]; discriminate.
    + destruct (rd_created _); destruct I as [I|[]]; discriminate.
    + destruct (rd_created _); destruct I as [I|[]]; discriminate.
    + destruct (rd_created _); destruct I as [I|[]]; discriminate.
    + destruct I.
    + destruct (rd_created _); destruct I as [I|[]]; discriminate.
Qed.
Lemma callback_called k m outs : In (ROCallback k m) outs -> In m (called outs).
Proof. intros I. apply in_flat_map. exists (ROCallback k m). split; [exact I|now left]. Qed.
Lemma called_sound net topic c is m : sane net -> Forall (from_network net) is -> In m (called (snd (nd_run topic c is node0))) ->
  exists p calls n, In (p, calls) net /\ p_topic p = topic /\ is_send p calls n m.
Proof.
  intros O F I. destruct (run_meant net topic c O is node0 F eq_refl) as (os & M & _ & E). rewrite E in I. cbn [nd_reader node0] in I.
  apply (within_in _ _ _ (called_taken c os)) in I. apply taken_arrived in I. destruct (meant_arrivals _ _ _ _ M _ I) as (p & calls & n & A & B & [S _]). eauto 10.
Qed.
Lemma read_sound net topic c is bs time : sane net -> Forall (from_network net) is -> In (RORead (Some (bs, time))) (snd (nd_run topic c is node0)) ->
  exists p calls n id, In (p, calls) net /\ p_topic p = topic /\ nth_send calls n bs time id.
Proof.
  intros O F I. destruct (run_meant net topic c O is node0 F eq_refl) as (os & M & _ & E). rewrite E in I. cbn [nd_reader node0] in I.
  destruct (read_out _ _ _ I) as (a & b & -> & R). apply read_lemma in R as [_ (a1 & m & a2 & -> & _ & -> & -> & _)].
  destruct (meant_arrivals _ _ _ _ M m) as (p & calls & n & A & B & [S _]).
  { unfold arrivals. rewrite flat_map_app. apply in_or_app. left. rewrite flat_map_app. apply in_or_app. right. now left. }
  exists p, calls, n, (m_id m). split; [exact A|]. split; [exact B|]. apply S.
Qed.
Lemma called_increasing net topic c is tid : sane net -> Forall (from_network net) is -> rc_drop_ooo c = true -> increasing (clocks_of tid (called (snd (nd_run topic c is node0)))).
Proof.
  intros O F D. destruct (run_meant net topic c O is node0 F eq_refl) as (os & M & _ & E). rewrite E. cbn [nd_reader node0].
  apply (within_increasing _ (clocks_of tid (taken c os))); [|now apply increasing_lemma].
  unfold clocks_of. apply within_map, within_filter, called_taken.
Qed.

(** ** Everything that was sent *)
Lemma run_mixed p calls c : ordinary p calls -> forall ks ns, mixed p calls ks ns -> forall nd, nd_udp nd = Listening ->
  exists ms, Forall2 (stands p calls) ns ms /\ snd (nd_run (p_topic p) c (map IPacket ks) nd) = concat (snd (rd_run c (map RArrive ms) (nd_reader nd))).
Proof.
  intros OP ks ns X. induction X as [|n k ks ns C X IH|q qc n k ks ns OQ NE C X IH]; intros nd L.
  { exists []. split; [constructor|reflexivity]. }
  - destruct (hear_ok (p_topic p) p calls n k nd OP C L) as (L1 & R1 & m & ST & Y). cbn [map nd_run nd_step].
    destruct (hear (p_topic p) k nd) as [n1 xs]. cbn [fst snd] in *. destruct Y as [->|[Y _]]; [|tauto].
    cbn [offers]. unfold offer. cbn [fst snd]. rewrite eqb_refl, R1. destruct (rd_apply c m (nd_reader nd)) as [r o] eqn:A.
    destruct (IH (Node (nd_udp n1) (nd_tcp n1) r) L1) as (ms & F & E). cbn [nd_reader] in E. exists (m :: ms). split; [now constructor|].
    cbn [map rd_run rd_step]. rewrite A. destruct (nd_run (p_topic p) c (map IPacket ks) _) as [n2 o2]. destruct (rd_run c (map RArrive ms) r) as [r2 o3]. cbn [fst snd concat] in *.
    rewrite app_nil_r. now rewrite E.
  - destruct (hear_ok (p_topic p) q qc n k nd OQ C L) as (L1 & R1 & m & ST & Y). cbn [map nd_run nd_step].
    destruct (hear (p_topic p) k nd) as [n1 xs]. cbn [fst snd] in *.
    assert (O : offers (p_topic p) c xs n1 = (n1, [])).
    { destruct Y as [->|[_ ->]]; [|reflexivity]. cbn [offers]. unfold offer. cbn [fst]. apply neq_eqb in NE. now rewrite NE. }
    rewrite O. destruct (IH n1 L1) as (ms & F & E). rewrite R1 in E. exists ms. split; [exact F|]. destruct (nd_run (p_topic p) c (map IPacket ks) n1) as [n2 o2]. exact E.
Qed.
Lemma records_snoc ns n : records (ns ++ [n]) = records_step (records ns) n.
Proof. unfold records. now rewrite fold_left_app. Qed.
Lemma records_in ns x : In x (records ns) -> In x ns.
Proof.
  induction ns as [|n ns IH] using rev_ind; [intros []|]. rewrite records_snoc. unfold records_step. intros I. apply in_or_app.
  destruct (forallb _ _); [apply in_app_or in I as [I|I]; auto|auto].
Qed.
Lemma records_top ns x : In x ns -> exists y, In y (records ns) /\ x <= y.
Proof.
  induction ns as [|n ns IH] using rev_ind; [intros []|]. rewrite records_snoc. unfold records_step. intros I. apply in_app_or in I as [I|[->|[]]].
  - destruct (IH I) as (y & A & B). exists y. split; [|exact B]. destruct (forallb _ _); [apply in_or_app; now left|exact A].
  - destruct (forallb (fun y => Nat.ltb y x) (records ns)) eqn:F; [exists x; split; [apply in_or_app; right; now left|lia]|].
    assert (G : exists y, In y (records ns) /\ x <= y); [|exact G].
    clear IH. induction (records ns) as [|z l IH]; [discriminate|]. cbn in F. destruct (Nat.ltb_spec z x).
    + cbn in F. destruct (IH F) as (y & A & B). exists y. split; [now right|exact B].
    + exists z. split; [now left|lia].
Qed.
Lemma stands_bound p calls n m : ordinary p calls -> stands p calls n m -> (0 <= Z.of_nat n < 2 ^ 63)%Z.
Proof. intros (_ & _ & _ & _ & _ & B & _) [(_ & _ & X) _]. apply nth_send_bound in X. lia. Qed.
Lemma taken_records p calls c k : ordinary p calls -> rc_udp c = true -> rc_shm c = true -> rc_tcp c = true -> rc_drop_ooo c = true ->
  forall ns ms, Forall2 (stands p calls) ns ms -> Forall2 (is_send p calls) (records ns) (taken c (RSetCallback k :: map RArrive ms)).
Proof.
  intros OP U S T D. induction ns as [|n ns IH] using rev_ind; intros ms F.
  { inversion F; subst. constructor. }
  apply Forall2_app_inv_l in F as (ms1 & ms2 & F1 & F2 & ->). inversion F2 as [|? m ? ? ST F3]; subst. inversion F3; subst. clear F2 F3.
  rewrite map_app. cbn [map]. change (RSetCallback k :: map RArrive ms1 ++ [RArrive m]) with ((RSetCallback k :: map RArrive ms1) ++ [RArrive m]).
  rewrite taken_snoc, records_snoc. specialize (IH _ F1). set (os := RSetCallback k :: map RArrive ms1) in *.
  assert (AR : arrivals os = ms1). { unfold os, arrivals. cbn [flat_map app]. clear. induction ms1; cbn; congruence. }
  unfold records_step. cbn [op_taken]. destruct ST as [(E1 & E2 & E3) E4].
  assert (TC : forall h, In h (clocks_of (p_tid p) (taken c os)) <-> exists x, In x (records ns) /\ h = Z.of_nat x).
  { intros h. clear - IH. induction IH as [|x y l l' [X1 [X2 _]] _ IH]; cbn; [split; [tauto|now intros (? & [] & _)]|].
    unfold clocks_of in *. cbn [filter]. rewrite X1, eqb_refl. cbn [map In]. rewrite IH, X2. split.
    - intros [<-|(z & A & B)]; eauto.
    - intros (z & [->|A] & ->); eauto. }
  destruct (forallb (fun x => Nat.ltb x n) (records ns)) eqn:G.
  - rewrite accept_lemma.
    + apply Forall2_app; [exact IH|]. constructor; [|constructor]. repeat split; auto.
    + intros [X|X]; [discriminate|]. apply in_map_iff in X as (? & X & _). discriminate.
    + repeat split; auto.
    + left. unfold filter_after, os. cbn [fold_left]. clear. induction ms1; cbn; auto.
    + rewrite AR. intros X. apply in_map_iff in X as (m' & X1 & X2). rewrite E4 in X1.
      assert (Y : exists n', In n' ns /\ stands p calls n' m').
      { clear - F1 X2. induction F1; [destruct X2|]. destruct X2 as [->|X2]; [eexists; split; [now left|eassumption]|]. destruct (IHF1 X2) as (n' & A & B). exists n'. split; [now right|exact B]. }
      destruct Y as (n' & Y1 & Y2). destruct (records_top _ _ Y1) as (y & Z1 & Z2). rewrite forallb_forall in G. specialize (G y Z1). apply Nat.ltb_lt in G.
      pose proof (stands_bound _ _ _ _ OP Y2) as B1. assert (B2 : (0 <= Z.of_nat n < 2 ^ 63)%Z) by (apply (stands_bound p calls n m OP); repeat split; auto).
      rewrite (proj2 Y2) in X1. apply snd_hash_inj in X1; [|assumption|assumption]. lia.
    + intros h X. rewrite E1 in X. apply TC in X as (x & X & ->). rewrite forallb_forall in G. specialize (G x X). apply Nat.ltb_lt in G. lia.
  - destruct (takes c (rd_after c os) m) eqn:TK; [|now rewrite app_nil_r].
    exfalso. assert (Y : exists y, In y (records ns) /\ n <= y).
    { clear - G. induction (records ns) as [|z l IH]; [discriminate|]. cbn in G. destruct (Nat.ltb_spec z n).
      - cbn in G. destruct (IH G) as (y & A & B). exists y. split; [now right|exact B].
      - exists z. split; [now left|lia]. }
    destruct Y as (y & Y1 & Y2). assert (Z1 : In (Z.of_nat y) (clocks_of (p_tid p) (taken c os))) by (apply TC; eauto).
    pose proof (increasing_lemma c (os ++ [RArrive m]) (p_tid p) D) as I. rewrite taken_snoc in I. cbn [op_taken] in I. rewrite TK in I. rewrite clocks_of_snoc, E1, eqb_refl, E2 in I.
    apply in_split in Z1 as (a & b & Z1). rewrite Z1 in I. rewrite <- app_assoc in I. cbn [app] in I. specialize (I a (Z.of_nat y) b (Z.of_nat n) [] eq_refl). lia.
Qed.
Lemma called_all c k ms : called (concat (snd (rd_run c (RSetCallback k :: map RArrive ms) rd_new))) = taken c (RSetCallback k :: map RArrive ms).
Proof.
  induction ms as [|m ms IH] using rev_ind; [reflexivity|].
  rewrite map_app. cbn [map]. change (RSetCallback k :: map RArrive ms ++ [RArrive m]) with ((RSetCallback k :: map RArrive ms) ++ [RArrive m]).
  rewrite called_snoc, taken_snoc, IH, step_called. f_equal.
  destruct (cb_inv c (RSetCallback k :: map RArrive ms)) as [-> _].
  { intros [X|X]; [discriminate|]. apply in_map_iff in X as (? & X & _). discriminate. }
  assert (E : callback_after (RSetCallback k :: map RArrive ms) = Some k). { unfold callback_after. cbn [fold_left]. clear. induction ms; cbn; auto. }
  now rewrite E.
Qed.
Lemma all_delivered p calls c k ks ns : ordinary p calls -> rc_udp c = true -> rc_shm c = true -> rc_tcp c = true -> rc_drop_ooo c = true -> mixed p calls ks ns ->
  Forall2 (is_send p calls) (records ns) (called (snd (nd_run (p_topic p) c (IUser (RSetCallback k) :: map IPacket ks) node0))).
Proof.
  intros OP U S T D X. cbn [nd_run nd_step]. cbn [rd_step nd_reader node0 rd_created rd_new]. 
  destruct (run_mixed p calls c OP ks ns X (Node Listening psample0 (set_cb rd_new (Some k))) eq_refl) as (ms & F & E).
  cbn [nd_udp nd_tcp]. destruct (nd_run (p_topic p) c (map IPacket ks) _) as [n2 o2]. cbn [snd nd_reader] in *. subst o2.
  pose proof (taken_records p calls c k OP U S T D ns ms F) as G. rewrite <- called_all in G. cbn [rd_run rd_step rd_created rd_new] in G.
  destruct (rd_run c (map RArrive ms) _) as [r2 o3]. exact G.
Qed.

(** ** In order *)
Lemma records_repeat ns n k : In n (records ns) -> records (ns ++ repeat n k) = records ns.
Proof.
  revert ns. induction k as [|k IH]; intros ns I; [cbn; now rewrite app_nil_r|]. cbn [repeat]. change (n :: repeat n k) with ([n] ++ repeat n k). rewrite app_assoc.
  assert (E : records (ns ++ [n]) = records ns).
  { rewrite records_snoc. unfold records_step. destruct (forallb (fun x => Nat.ltb x n) (records ns)) eqn:F; [|reflexivity]. rewrite forallb_forall in F. specialize (F n I). apply Nat.ltb_lt in F. lia. }
  rewrite IH; [exact E|now rewrite E].
Qed.
Lemma records_in_order times N : (forall n, 0 < times n) -> records (flat_map (fun n => repeat n (times n)) (seq 1 N)) = seq 1 N.
Proof.
  intros P. induction N as [|N IH]; [reflexivity|]. rewrite seq_S, flat_map_app. cbn [flat_map]. rewrite app_nil_r.
  specialize (P (1 + N)). destruct (times (1 + N)) as [|k]; [lia|]. cbn [repeat Nat.add].
  set (a := flat_map _ _) in *. change (S N :: repeat (S N) k) with ([S N] ++ repeat (S N) k). rewrite app_assoc.
  assert (E : records (a ++ [S N]) = seq 1 N ++ [S N]).
  { rewrite records_snoc, IH. unfold records_step.
    destruct (forallb (fun x => Nat.ltb x (S N)) (seq 1 N)) eqn:F; [reflexivity|]. exfalso.
    assert (forallb (fun x => Nat.ltb x (S N)) (seq 1 N) = true); [|congruence]. apply forallb_forall. intros x X. apply in_seq in X. apply Nat.ltb_lt. lia. }
  rewrite records_repeat; [exact E|]. rewrite E. apply in_or_app. right. now left.
Qed.
Lemma all_in_order p calls c k ks times N : ordinary p calls -> rc_udp c = true -> rc_shm c = true -> rc_tcp c = true -> rc_drop_ooo c = true ->
  (forall n, 0 < times n) -> mixed p calls ks (flat_map (fun n => repeat n (times n)) (seq 1 N)) ->
  Forall2 (is_send p calls) (seq 1 N) (called (snd (nd_run (p_topic p) c (IUser (RSetCallback k) :: map IPacket ks) node0))).
Proof. intros OP U S T D P X. pose proof (all_delivered p calls c k ks _ OP U S T D X) as H. now rewrite records_in_order in H. Qed.
(** ** Packets exist *)
Lemma udp_packet p calls t : transmits p calls t -> tx_layer t = tl_udp -> exists n k, udp_out p t = Some k /\ carries p calls n k /\ 0 < n <= sends calls.
Proof.
  intros T L. destruct (transmits_sound _ _ _ T) as (n & pay & time & id & X & E). exists n.
  assert (B : tx_bytes t = Some pay) by (rewrite E; reflexivity). assert (C : WrModel.tx_clock t = Z.of_nat n) by (rewrite E; reflexivity).
  unfold udp_out. rewrite B. eexists. split; [reflexivity|]. split; [|now apply nth_send_bound in X]. eapply by_udp; eauto. unfold udp_out. now rewrite B.
Qed.
Lemma tcp_packet p calls t : ordinary p calls -> transmits p calls t -> tx_layer t = tl_tcp -> exists n k, tcp_out p t = Some k /\ carries p calls n k /\ 0 < n <= sends calls.
Proof.
  intros (N1 & N2 & NZ & SZ & HH & SB & OR) T L. destruct (transmits_sound _ _ _ T) as (n & pay & time & id & X & E). exists n.
  assert (B : tx_bytes t = Some pay) by (rewrite E; reflexivity). assert (C : WrModel.tx_clock t = Z.of_nat n) by (rewrite E; reflexivity).
  unfold tcp_out. rewrite B. pose proof (len_nonneg (p_host p)).
  destruct (frame_fits (p_topic p) (p_tid p) (TMsg (WrModel.tx_id t) (WrModel.tx_clock t) (WrModel.tx_time t) (WrModel.tx_hash t) pay) ltac:(lia)) as (f & F).
  rewrite F. eexists. split; [reflexivity|]. split; [|now apply nth_send_bound in X]. eapply by_tcp; eauto. unfold tcp_out. now rewrite B, F.
Qed.

(** ** Examples *)
Lemma ordinary_by p calls : p_topic p <> [] -> p_tid p <> [] -> no_zero (p_topic p) -> (len (p_host p) + len (p_topic p) + len (p_tid p) <= 65000)%Z ->
  (0 <= wc_tid_hash (p_cfg p) < 2 ^ 64)%Z -> (Z.of_nat (sends calls) < 2 ^ 63)%Z ->
  forallb (fun o => match o with CSend pay time _ _ _ => (len pay <? 2 ^ 31)%Z && (- 2 ^ 63 <=? time)%Z && (time <? 2 ^ 63)%Z
                               | CSetID i => (- 2 ^ 63 <=? i)%Z && (i <? 2 ^ 63)%Z | _ => true end) calls = true -> ordinary p calls.
Proof.
  intros A B C D E F G. rewrite forallb_forall in G. repeat (split; [assumption|]).
  intros n pay time id (a & b & x & y & z & -> & _ & ->).
  pose proof (G (CSend pay time x y z) ltac:(apply in_or_app; right; now left)) as G1. cbn beta iota in G1.
  apply andb_true_iff in G1 as [G1 G3]. apply andb_true_iff in G1 as [G1 G2]. apply Z.ltb_lt in G1, G3. apply Z.leb_le in G2.
  split; [exact G1|]. split; [unfold i64; lia|].
  assert (H : forall o, In o a -> match o with CSetID i => i64 i | _ => True end).
  { intros o I. specialize (G o ltac:(apply in_or_app; now left)). destruct o; auto. apply andb_true_iff in G as [G4 G5]. apply Z.leb_le in G4. apply Z.ltb_lt in G5. unfold i64. lia. }
  clear - H. unfold id_after. induction a as [|o a IH] using rev_ind; [cbn; unfold i64; lia|]. rewrite fold_left_app. cbn [fold_left].
  specialize (IH (fun o I => H o (in_or_app _ _ _ (or_introl I)))). specialize (H o ltac:(apply in_or_app; right; now left)). destruct o; auto.
Qed.

Lemma ex_ordinary : ordinary ex_pub ex_calls.
Proof. apply ordinary_by; vm_compute; try reflexivity; try discriminate; try (split; [discriminate|reflexivity]). intros H. intuition discriminate. Qed.
Lemma ex_udp_carries n : n = 1 \/ n = 2 \/ n = 3 -> carries ex_pub ex_calls n (ex_udp n).
Proof.
  intros H. assert (T : transmits ex_pub ex_calls (ex_tx n tl_udp)).
  { eexists. eexists. split; [vm_compute; reflexivity|]. destruct H as [->|[->| ->]]; vm_compute; tauto. }
  apply (by_udp _ _ _ _ _ T); destruct H as [->|[->| ->]]; reflexivity.
Qed.
Lemma ex_shm_carries : carries ex_pub ex_calls 1 ex_shm.
Proof.
  apply (by_shm ex_pub ex_calls 1); [|reflexivity]. exists 1, 100%Z, ex_shm_ops. eexists. eexists. exists 7, 0. split; [lia|]. split; [vm_compute; reflexivity|]. split; [|split].
  - intros m e ok I. exists (ex_tx 1 tl_shm), false, 0%Z. cbn in I. repeat (destruct I as [I|I]; [try discriminate I|]); [|destruct I].
    injection I as <- <- <-. split; [|split; reflexivity]. eexists. eexists. split; [vm_compute; reflexivity|]. vm_compute. tauto.
  - intros j I. cbn in I. repeat (destruct I as [I|I]; [discriminate I|]). destruct I.
  - vm_compute. tauto.
Qed.
