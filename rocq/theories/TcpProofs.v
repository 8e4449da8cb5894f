(** Proofs for the TCP transport layer. *)
From Coq Require Import List ZArith Bool Lia.
From Verif Require Import Base Sample PbModel PbSpec PbProofs PbRound PbExt SerModel SerSpec SerProofs TcpModel TcpSpec.
Import ListNotations.
Local Open Scope Z_scope.

(** ** Numbers *)
Lemma to_i64_range z : i64 (to_i64 z).
Proof. unfold i64, to_i64. pose proof (Z.mod_pos_bound (z + 2 ^ 63) (2 ^ 64) ltac:(lia)). lia. Qed.
Lemma to_i64_same z : 0 <= z < 2 ^ 64 -> to_i64 z = z \/ to_i64 z = z - 2 ^ 64.
Proof.
  intros H. unfold to_i64. destruct (Z_lt_le_dec z (2 ^ 63)).
  - left. rewrite Z.mod_small by lia. lia.
  - right. replace (z + 2 ^ 63) with ((z - 2 ^ 63) + 1 * 2 ^ 64) by lia. rewrite Z.mod_add by lia. rewrite Z.mod_small by lia. lia.
Qed.
Lemma to_i32_range z : i32 (to_i32 z).
Proof. unfold i32, to_i32. pose proof (Z.mod_pos_bound (z + 2 ^ 31) (2 ^ 32) ltac:(lia)). lia. Qed.
Lemma to_i32_small z : 0 <= z < 2 ^ 31 -> to_i32 z = z.
Proof. intros H. unfold to_i32. rewrite Z.mod_small by lia. lia. Qed.
Lemma to_i32_wrap z : 2 ^ 31 <= z < 2 ^ 32 + 2 ^ 31 -> to_i32 z = z - 2 ^ 32.
Proof. intros H. unfold to_i32. replace (z + 2 ^ 31) with ((z - 2 ^ 31) + 1 * 2 ^ 32) by lia. rewrite Z.mod_add by lia. rewrite Z.mod_small by lia. lia. Qed.
Lemma to_size_small z : 0 <= z < 2 ^ 64 -> to_size z = z.
Proof. apply Z.mod_small. Qed.
Lemma to_size_neg z : - 2 ^ 64 <= z < 0 -> to_size z = z + 2 ^ 64.
Proof. intros H. unfold to_size. replace z with ((z + 2 ^ 64) + (-1) * 2 ^ 64) at 1 by lia. rewrite Z.mod_add by lia. apply Z.mod_small. lia. Qed.
Lemma u16_fits z : 0 <= z -> (z < 2 ^ 16 /\ to_u16 z = z) \/ (to_u16 z <? z) = true.
Proof.
  intros H. unfold to_u16. destruct (Z_lt_le_dec z (2 ^ 16)) as [L|L]; [left; split; [exact L|apply Z.mod_small; lia]|right].
  apply Z.ltb_lt. pose proof (Z.mod_pos_bound z (2 ^ 16) ltac:(lia)). lia.
Qed.
Lemma get_put z : 0 <= z < 2 ^ 16 -> get16 (z mod 256) (z / 256) = z.
Proof.
  intros H. unfold get16. rewrite Z.mod_mod by lia. rewrite (Z.mod_small (z / 256)); [pose proof (Z.div_mod z 256 ltac:(lia)); lia|].
  split; [apply Z.div_pos; lia|apply Z.div_lt_upper_bound; lia].
Qed.

(** ** The size of a header *)
Lemma varint_size v bs : varint v bs -> forall n, v < 128 ^ Z.of_nat n -> (0 < n)%nat -> (length bs <= n)%nat.
Proof.
  induction 1 as [b Hb|b v bs Hb P V IH]; intros n Hv Hn; cbn [length]; [lia|].
  destruct n as [|n]; [lia|]. rewrite Nat2Z.inj_succ, Z.pow_succ_r in Hv by lia.
  destruct n as [|n].
  - cbn in Hv. lia.
  - assert (length bs <= Datatypes.S n)%nat by (apply IH; lia). lia.
Qed.
Lemma enc_varint_size v : 0 <= v < 2 ^ 64 -> len (enc_varint v) <= 10.
Proof. intros H. pose proof (varint_size _ _ (enc_varint_ok v H) 10 ltac:(cbn; lia) ltac:(lia)). unfold len. lia. Qed.
Lemma enc_varint_size3 v : 0 <= v < 2 ^ 21 -> len (enc_varint v) <= 3.
Proof. intros H. pose proof (varint_size _ _ (enc_varint_ok v ltac:(lia)) 3 ltac:(cbn; lia) ltac:(lia)). unfold len. lia. Qed.
Definition ccontent (m : tmsg) : list fval :=
  [VInt (tm_id m); VInt (tm_clock m); VInt (tm_time m); VNull; VInt (to_i32 (len (tm_payload m))); VInt (to_i64 (tm_hash m))].
Definition ctopic (tname tid : text) : list fval := pl_topic VNull (cb tid) (cb tname).
Lemma ser_header tname tid m pad : ser_payload (tcp_header tname tid m pad) =
  (enc_tag wt_string 5 ++ enc_string (enc_msg d_topic (ctopic tname tid))) ++
  (enc_tag wt_string 6 ++ enc_string (enc_msg d_content (ccontent m))) ++ enc_tag wt_string 8 ++ enc_string pad.
Proof.
  unfold ser_payload, d_sample, pb_psample, no_msg, tcp_header.
  cbn [ps_cmd ps_hname ps_tid ps_tname ps_id ps_clock ps_time ps_hash ps_size ps_payload ps_padding].
  change (cb []) with VNull. fold (ctopic tname tid) (ccontent m). cbn [enc_msg]. rewrite !enc_field_msg. cbn [enc_field cmd_code Z.eqb]. cbn [app].
  rewrite ?app_nil_r. rewrite <- ?app_assoc. reflexivity.
Qed.
Lemma header_padded tname tid m p : 0 <= p <= 127 ->
  len (ser_payload (tcp_header tname tid m (repeat 0 (Z.to_nat p)))) = len (ser_payload (tcp_header tname tid m [])) + p.
Proof.
  intros H. rewrite !ser_header, !len_app. unfold enc_string at 3 6. rewrite !len_app.
  assert (L : len (repeat 0 (Z.to_nat p)) = p) by (unfold len; rewrite repeat_length; lia). rewrite L.
  assert (V : forall v, 0 <= v <= 127 -> len (enc_varint v) = 1).
  { intros v Hv. unfold enc_varint. destruct (Z.leb_spec v 127); [reflexivity|lia]. }
  rewrite (V p H). change (len []) with 0. rewrite (V 0) by lia. lia.
Qed.
Lemma padding_range tname tid m : 0 <= tcp_padding tname tid m <= 7.
Proof. unfold tcp_padding. match goal with |- context [?a mod 8] => pose proof (Z.mod_pos_bound a 8 ltac:(lia)) end. lia. Qed.
Definition full_header (tname tid : text) (m : tmsg) : psample := tcp_header tname tid m (repeat 0 (Z.to_nat (tcp_padding tname tid m))).
Lemma full_header_wf tname tid m : wf_tmsg m -> wf_psample (full_header tname tid m).
Proof.
  intros (A & B & C & D). unfold wf_psample, full_header, tcp_header. cbn [ps_cmd ps_id ps_clock ps_time ps_hash ps_size].
  repeat split; try (apply A); try (apply B); try (apply C); try discriminate; try apply to_i64_range; try apply to_i32_range.
Qed.
Lemma frame_inv tname tid m bs : tcp_frame tname tid m = Some bs ->
  len (ser_payload (full_header tname tid m)) < 2 ^ 16 /\
  bs = ecal_magic ++ put16 (len (ser_payload (full_header tname tid m))) ++ ser_payload (full_header tname tid m) ++ tm_payload m.
Proof.
  unfold tcp_frame. fold (full_header tname tid m). set (b := ser_payload (full_header tname tid m)). intros E.
  clearbody b. destruct (u16_fits (len b) (len_nonneg b)) as [[L Q]|Q]; rewrite Q in E.
  - rewrite Z.ltb_irrefl in E. injection E as <-. split; [exact L|reflexivity].
  - discriminate.
Qed.
Lemma frame_some tname tid m : len (ser_payload (full_header tname tid m)) < 2 ^ 16 -> exists bs, tcp_frame tname tid m = Some bs.
Proof.
  intros H. unfold tcp_frame. fold (full_header tname tid m). set (b := ser_payload (full_header tname tid m)) in *.
  clearbody b. pose proof (len_nonneg b). unfold to_u16. rewrite Z.mod_small by lia. rewrite Z.ltb_irrefl. eauto.
Qed.

(** ** Alignment *)
Lemma frame_aligned tname tid m bs : tcp_frame tname tid m = Some bs ->
  exists head, bs = head ++ tm_payload m /\ len head mod 8 = 0.
Proof.
  intros E. apply frame_inv in E as [L ->]. exists (ecal_magic ++ put16 (len (ser_payload (full_header tname tid m))) ++ ser_payload (full_header tname tid m)).
  split; [now rewrite <- !app_assoc|]. rewrite !len_app. change (len ecal_magic) with 4. change (len (put16 _)) with 2.
  pose proof (padding_range tname tid m) as P. revert L. unfold full_header. rewrite header_padded by lia. intros L.
  assert (S : len (ser_payload (tcp_header tname tid m [])) < 2 ^ 16) by lia.
  assert (tcp_padding tname tid m = (8 - (6 + len (ser_payload (tcp_header tname tid m []))) mod 8) mod 8) as ->.
  { unfold tcp_padding, to_u16, magic_size. rewrite (Z.mod_small _ (2 ^ 16)); [reflexivity|]. pose proof (len_nonneg (ser_payload (tcp_header tname tid m []))). lia. }
  set (n := len (ser_payload (tcp_header tname tid m []))).
  replace (4 + (2 + (n + (8 - (6 + n) mod 8) mod 8))) with ((6 + n) + (8 - (6 + n) mod 8) mod 8) by lia.
  rewrite Zplus_mod_idemp_r. replace (6 + n + (8 - (6 + n) mod 8)) with ((6 + n) - (6 + n) mod 8 + 1 * 8) by lia.
  rewrite Z.mod_add by lia. rewrite Zminus_mod_idemp_r. now rewrite Z.sub_diag.
Qed.

(** ** Receiving a frame *)
Definition got (t : psample) (tname tid : text) (m : tmsg) (n : Z) : tsample :=
  TSample (keep (ps_tname t) tname) (keep (ps_tid t) tid) (firstn (Z.to_nat n) (tm_payload m)) (tm_id m) (tm_clock m) (tm_time m) (to_i64 (tm_hash m)).
Lemma receive_frame t tname tid m bs : wf_tmsg m -> tcp_frame tname tid m = Some bs ->
  snd (tcp_receive t bs) =
  (let n := to_size (to_i32 (len (tm_payload m))) in if len (tm_payload m) <? n then TOutside else TGot (got t tname tid m n)).
Proof.
  intros W E. apply frame_inv in E as [L ->]. set (b := ser_payload (full_header tname tid m)) in *.
  pose proof (len_nonneg b) as N. unfold ecal_magic, put16. cbn [app tcp_receive]. rewrite get_put by lia.
  destruct (Z.ltb_spec (len (b ++ tm_payload m)) (len b)) as [X|X]; [rewrite len_app in X; pose proof (len_nonneg (tm_payload m)); lia|].
  assert (F : firstn (Z.to_nat (len b)) (b ++ tm_payload m) = b).
  { unfold len. rewrite Nat2Z.id, firstn_app, firstn_all, Nat.sub_diag. cbn [firstn]. apply app_nil_r. }
  assert (K : skipn (Z.to_nat (len b)) (b ++ tm_payload m) = tm_payload m).
  { unfold len. rewrite Nat2Z.id, skipn_app, skipn_all, Nat.sub_diag. reflexivity. }
  rewrite F, K. unfold b. rewrite (payload_into t _ (full_header_wf tname tid m W)) by (fold b; lia).
  unfold full_header, tcp_header. cbn [ps_cmd ps_hname ps_tid ps_tname ps_id ps_clock ps_time ps_hash ps_size ps_payload ps_padding snd].
  reflexivity.
Qed.
Lemma receive_ok t tname tid m bs : wf_tmsg m -> len (tm_payload m) < 2 ^ 31 -> tcp_frame tname tid m = Some bs ->
  tname <> [] -> tid <> [] -> delivered tname tid m (snd (tcp_receive t bs)).
Proof.
  intros W L E N1 N2. rewrite (receive_frame t _ _ _ _ W E). cbv zeta. pose proof (len_nonneg (tm_payload m)) as P.
  rewrite to_i32_small by lia. rewrite to_size_small by lia. rewrite Z.ltb_irrefl. eexists. split; [reflexivity|].
  unfold got. assert (F : firstn (Z.to_nat (len (tm_payload m))) (tm_payload m) = tm_payload m) by (unfold len; rewrite Nat2Z.id; apply firstn_all).
  rewrite F. destruct tname; [tauto|]. destruct tid; [tauto|]. destruct W as (A & B & C & D).
  unfold handed_over. cbn [tx_tname tx_tid tx_payload tx_id tx_clock tx_time tx_hash keep].
  split; [reflexivity|]. split; [reflexivity|]. split; [reflexivity|]. split; [reflexivity|]. split; [reflexivity|]. split; [reflexivity|].
  split; [apply to_i64_range|now apply to_i64_same].
Qed.
Lemma receives_ok tname tid : tname <> [] -> tid <> [] -> forall ms bss t,
  Forall2 (fun m bs => wf_tmsg m /\ len (tm_payload m) < 2 ^ 31 /\ tcp_frame tname tid m = Some bs) ms bss ->
  Forall2 (delivered tname tid) ms (snd (tcp_receives t bss)).
Proof.
  intros N1 N2 ms bss t F. revert t. induction F as [|m bs ms bss (W & L & E) F IH]; intros t; cbn [tcp_receives]; [constructor|].
  pose proof (receive_ok t _ _ _ _ W L E N1 N2) as R. destruct (tcp_receive t bs) as [t1 r]. specialize (IH t1).
  destruct (tcp_receives t1 bss) as [t2 rs]. cbn [snd] in *. now constructor.
Qed.

(** ** Size limits *)
Ltac lens := repeat match goal with |- context [len ?y] => lazymatch goal with H : (0 <= len y) |- _ => fail | _ => pose proof (len_nonneg y) end end.
Lemma cb_size tag s : 0 < tag < 2 ^ 29 -> len s < 2 ^ 21 -> len s <= len (enc_field tag FCallStr (cb s)) <= len s + 13.
Proof.
  intros T L. pose proof (len_nonneg s). destruct s as [|x s]; [cbn; unfold len; cbn; lia|]. cbn [cb enc_field]. rewrite len_app. unfold enc_string. rewrite len_app.
  pose proof (enc_varint_size3 (len (x :: s)) ltac:(lia)).
  assert (len (enc_tag wt_string tag) <= 10) by (apply enc_varint_size; unfold wt_string; lia). lens. lia.
Qed.
Lemma cb_size_low tag s : len s <= len (enc_field tag FCallStr (cb s)).
Proof.
  destruct s as [|x s]; [reflexivity|]. cbn [cb enc_field]. rewrite len_app. pose proof (enc_string_len (x :: s)). lens. lia.
Qed.
Lemma topic_enc tname tid : enc_msg d_topic (ctopic tname tid) = enc_field 6 FCallStr (cb tid) ++ enc_field 7 FCallStr (cb tname).
Proof.
  unfold ctopic, pl_topic, d_topic. cbn [enc_msg].
  generalize (enc_field 6 FCallStr (cb tid)) (enc_field 7 FCallStr (cb tname)). intros a b. cbn [enc_field Z.eqb app]. now rewrite ?app_nil_r.
Qed.
Lemma topic_size tname tid : len tname + len tid < 2 ^ 20 -> len (enc_msg d_topic (ctopic tname tid)) <= len tname + len tid + 26.
Proof.
  intros L. pose proof (len_nonneg tname). pose proof (len_nonneg tid). rewrite topic_enc, len_app.
  pose proof (cb_size 6 tid ltac:(lia) ltac:(lia)). pose proof (cb_size 7 tname ltac:(lia) ltac:(lia)). lia.
Qed.
Lemma num_size tag ty z : 0 < tag < 2 ^ 29 -> ty = FI64 \/ ty = FI32 -> len (enc_field tag ty (VInt z)) <= 20.
Proof.
  intros T H. assert (len (enc_tag wt_varint tag ++ enc_varint (u64 z)) <= 20).
  { rewrite len_app. assert (len (enc_tag wt_varint tag) <= 10) by (apply enc_varint_size; unfold wt_varint; lia).
    assert (len (enc_varint (u64 z)) <= 10) by (apply enc_varint_size; unfold u64; apply Z.mod_pos_bound; lia). lia. }
  destruct H as [-> | ->]; cbn [enc_field]; (destruct (Z.eqb z 0); [cbn; lia|assumption]).
Qed.
Lemma content_size m : len (enc_msg d_content (ccontent m)) <= 100.
Proof.
  unfold ccontent, d_content. cbn [enc_msg]. rewrite !len_app.
  pose proof (num_size 1 FI64 (tm_id m) ltac:(lia) ltac:(auto)). pose proof (num_size 2 FI64 (tm_clock m) ltac:(lia) ltac:(auto)).
  pose proof (num_size 3 FI64 (tm_time m) ltac:(lia) ltac:(auto)). pose proof (num_size 6 FI32 (to_i32 (len (tm_payload m))) ltac:(lia) ltac:(auto)).
  pose proof (num_size 7 FI64 (to_i64 (tm_hash m)) ltac:(lia) ltac:(auto)).
  change (len (enc_field 4 FCallStr VNull)) with 0. change (len []) with 0. lia.
Qed.
Lemma header_size tname tid m : len tname + len tid <= 65000 ->
  len tname + len tid <= len (ser_payload (full_header tname tid m)) < 2 ^ 16.
Proof.
  intros L. pose proof (padding_range tname tid m) as P. unfold full_header. rewrite header_padded by lia. rewrite ser_header, !len_app.
  unfold enc_string. rewrite !len_app. change (len (enc_varint (len []))) with 1. change (len []) with 0.
  pose proof (topic_size tname tid ltac:(lia)) as S1. pose proof (content_size m) as S2.
  assert (S0 : len tname + len tid <= len (enc_msg d_topic (ctopic tname tid))).
  { rewrite topic_enc, len_app. pose proof (cb_size_low 6 tid). pose proof (cb_size_low 7 tname). lia. }
  set (a := enc_msg d_topic (ctopic tname tid)) in *. set (b := enc_msg d_content (ccontent m)) in *. clearbody a b.
  pose proof (len_nonneg a). pose proof (len_nonneg b).
  pose proof (enc_varint_size3 (len a) ltac:(lia)). pose proof (enc_varint_size3 (len b) ltac:(lia)).
  change (len (enc_tag wt_string 5)) with 1. change (len (enc_tag wt_string 6)) with 1. change (len (enc_tag wt_string 8)) with 1. lens. lia.
Qed.
Lemma frame_fits tname tid m : len tname + len tid <= 65000 -> exists bs, tcp_frame tname tid m = Some bs.
Proof. intros L. apply frame_some. apply (header_size tname tid m L). Qed.
Lemma frame_too_long tname tid m : 2 ^ 16 <= len tname + len tid -> tcp_frame tname tid m = None.
Proof.
  intros L. destruct (tcp_frame tname tid m) as [bs|] eqn:E; [|reflexivity]. exfalso. apply frame_inv in E as [S _].
  pose proof (padding_range tname tid m) as P. revert S. unfold full_header. rewrite header_padded by lia. rewrite ser_header, !len_app.
  unfold enc_string. rewrite !len_app. rewrite topic_enc, !len_app. pose proof (cb_size_low 6 tid). pose proof (cb_size_low 7 tname). lens. lia.
Qed.
Lemma receive_2g t tname tid m bs : wf_tmsg m -> 2 ^ 31 <= len (tm_payload m) < 2 ^ 32 -> tcp_frame tname tid m = Some bs ->
  snd (tcp_receive t bs) = TOutside.
Proof.
  intros W L E. rewrite (receive_frame t _ _ _ _ W E). cbv zeta. rewrite to_i32_wrap by lia. rewrite to_size_neg by lia.
  destruct (Z.ltb_spec (len (tm_payload m)) (len (tm_payload m) - 2 ^ 32 + 2 ^ 64)); [reflexivity|lia].
Qed.
Lemma receive_4g t tname tid m bs : wf_tmsg m -> 2 ^ 32 <= len (tm_payload m) < 2 ^ 32 + 2 ^ 31 -> tcp_frame tname tid m = Some bs ->
  exists x, snd (tcp_receive t bs) = TGot x /\ len (tx_payload x) = len (tm_payload m) - 2 ^ 32.
Proof.
  intros W L E. rewrite (receive_frame t _ _ _ _ W E). cbv zeta. rewrite to_i32_wrap by lia. rewrite to_size_small by lia.
  destruct (Z.ltb_spec (len (tm_payload m)) (len (tm_payload m) - 2 ^ 32)); [lia|]. eexists. split; [reflexivity|].
  unfold got. cbn [tx_payload]. rewrite len_firstn; lia.
Qed.
Lemma long_case n : 0 <= n -> exists m bs, wf_tmsg m /\ len (tm_payload m) = n /\ tcp_frame [65] [49] m = Some bs.
Proof.
  intros N. assert (L : len (repeat 0 (Z.to_nat n)) = n) by (unfold len; rewrite repeat_length; lia).
  revert L. generalize (repeat 0 (Z.to_nat n)) as l. intros l L. exists (TMsg 0 0 0 0 l).
  destruct (frame_fits [65] [49] (TMsg 0 0 0 0 l)) as [bs E]; [unfold len; cbn; lia|]. exists bs.
  split; [unfold wf_tmsg, i64; cbn [tm_id tm_clock tm_time tm_hash]; lia|]. split; [exact L|exact E].
Qed.
Lemma receive_empty_name t m bs : wf_tmsg m -> len (tm_payload m) < 2 ^ 31 -> tcp_frame [] [] m = Some bs -> ps_tname t <> [] ->
  exists x, snd (tcp_receive t bs) = TGot x /\ tx_tname x = ps_tname t.
Proof.
  intros W L E N. rewrite (receive_frame t _ _ _ _ W E). cbv zeta. pose proof (len_nonneg (tm_payload m)).
  rewrite to_i32_small by lia. rewrite to_size_small by lia. rewrite Z.ltb_irrefl. eexists. split; [reflexivity|]. reflexivity.
Qed.
Lemma receive_short t buf : len buf < 6 -> snd (tcp_receive t buf) = TOutside.
Proof.
  intros L. do 6 (destruct buf as [|? buf]; [reflexivity|]). rewrite !len_cons in L. pose proof (len_nonneg buf). lia.
Qed.
(** What is handed over never reaches beyond the buffer; anything else is reported. *)
Lemma receive_inside t buf x : snd (tcp_receive t buf) = TGot x -> exists pre post, buf = pre ++ tx_payload x ++ post /\ 6 <= len pre.
Proof.
  do 6 (destruct buf as [|? buf]; [discriminate|]). cbn [tcp_receive]. destruct (Z.ltb_spec (len buf) (get16 z3 z4)) as [X|X]; [discriminate|].
  destruct (de_payload_into _ _) as [h| |]; [|discriminate|discriminate]. cbn [snd].
  set (data := skipn (Z.to_nat (get16 z3 z4)) buf). destruct (_ <? _); [discriminate|]. intros E. injection E as <-. cbn [tx_payload].
  exists (z :: z0 :: z1 :: z2 :: z3 :: z4 :: firstn (Z.to_nat (get16 z3 z4)) buf), (skipn (Z.to_nat (to_size (ps_size h))) data).
  rewrite firstn_skipn. split; [|rewrite !len_cons; lens; lia]. cbn [app]. unfold data. now rewrite firstn_skipn.
Qed.

(** ** The layer *)
Lemma truns_app s a b : truns s (a ++ b) = truns (truns s a) b.
Proof. apply fold_left_app. Qed.
Lemma after_app a b : after (a ++ b) = truns (after a) (map top_of b).
Proof. unfold after. now rewrite map_app, truns_app. Qed.
Lemma peer_eqb_spec a b : peer_eqb a b = true <-> a = b.
Proof.
  unfold peer_eqb. destruct a as [h p], b as [h' p']. cbn [fst snd]. rewrite andb_true_iff, Z.eqb_eq. split.
  - intros [A B]. apply eqb_true in A. congruence.
  - intros E. injection E as -> ->. split; [apply eqb_refl|reflexivity].
Qed.
Lemma in_add h p l x : In x (add_connection h p l) <-> In x l \/ (p <> 0 /\ x = (h, p)).
Proof.
  unfold add_connection. destruct (Z.eqb_spec p 0) as [->|N]; [tauto|].
  destruct (existsb _ l) eqn:E.
  - apply existsb_exists in E as (y & Hy & E). apply peer_eqb_spec in E. subst y. split; [tauto|]. intros [H|[_ ->]]; assumption.
  - rewrite in_app_iff. cbn [In]. split; [intros [H|[H|[]]]; auto|intros [H|[_ H]]; auto].
Qed.
Lemma nodup_add h p l : NoDup l -> NoDup (add_connection h p l).
Proof.
  intros N. unfold add_connection. destruct (p =? 0); [exact N|]. destruct (existsb _ l) eqn:E; [exact N|].
  apply nodup_snoc; [exact N|]. intros H. assert (existsb (peer_eqb (h, p)) l = true); [|congruence].
  apply existsb_exists. exists (h, p). split; [exact H|now apply peer_eqb_spec].
Qed.
Lemma sessions_step t s o : sessions t (tstep s o) =
  match o with
  | TAdd _ => sessions t s
  | TRem t' => if eqb t' t then [] else sessions t s
  | TPar t' h p => if eqb t' t then match aget t s with Some l => add_connection h (to_u16 p) l | None => [] end else sessions t s
  | TGone t' h p => if eqb t' t then filter (fun x => negb (peer_eqb (h, p) x)) (sessions t s) else sessions t s
  end.
Proof.
  unfold sessions. destruct o as [t'|t'|t' h p|t' h p]; cbn [tstep].
  - destruct (aget t' s) eqn:E; [reflexivity|]. rewrite aget_aset. destruct (eqb t t') eqn:Q; [|reflexivity]. apply eqb_true in Q. subst t'. now rewrite E.
  - rewrite aget_adel. rewrite (eqb_sym t t'). now destruct (eqb t' t).
  - destruct (eqb t' t) eqn:Q.
    + apply eqb_true in Q. subst t'. destruct (aget t s) eqn:E; [now rewrite aget_aset_same|now rewrite E].
    + apply eqb_false in Q. destruct (aget t' s) eqn:E; [rewrite aget_aset_other by congruence|]; reflexivity.
  - destruct (eqb t' t) eqn:Q.
    + apply eqb_true in Q. subst t'. destruct (aget t s) eqn:E; [now rewrite aget_aset_same|now rewrite E].
    + apply eqb_false in Q. destruct (aget t' s) eqn:E; [rewrite aget_aset_other by congruence|]; reflexivity.
Qed.
Lemma reader_step t s o : (exists l, aget t s = Some l) -> (match o with TRem t' => eqb t' t | _ => false end) = false -> exists l, aget t (tstep s o) = Some l.
Proof.
  intros [l E] N. destruct o as [t'|t'|t' h p|t' h p]; cbn [tstep].
  - destruct (aget t' s) eqn:F; [eauto|]. rewrite aget_aset. destruct (eqb t t'); eauto.
  - rewrite aget_adel, (eqb_sym t t'), N. eauto.
  - destruct (aget t' s) eqn:F; [|eauto]. rewrite aget_aset. destruct (eqb t t'); eauto.
  - destruct (aget t' s) eqn:F; [|eauto]. rewrite aget_aset. destruct (eqb t t'); eauto.
Qed.
Lemma reader_stays t l : forallb (fun o => negb (removes t o)) l = true -> forall s, (exists x, aget t s = Some x) -> exists x, aget t (truns s (map top_of l)) = Some x.
Proof.
  induction l as [|o l IH]; intros F s E; [exact E|]. cbn [forallb] in F. apply andb_true_iff in F as [F1 F2]. apply negb_true_iff in F1.
  cbn [map]. unfold truns. cbn [fold_left]. apply (IH F2). apply reader_step; [exact E|]. destruct o; exact F1 || reflexivity.
Qed.
Lemma session_stays t h p l : forallb (fun o => negb (removes t o)) l = true -> ~ In (XGone t h p) l ->
  forall s, In (h, p) (sessions t s) -> In (h, p) (sessions t (truns s (map top_of l))).
Proof.
  induction l as [|o l IH]; intros F G s E; [exact E|]. cbn [forallb] in F. apply andb_true_iff in F as [F1 F2]. apply negb_true_iff in F1.
  cbn [map]. unfold truns. cbn [fold_left]. apply (IH F2 (fun H => G (or_intror H))). rewrite sessions_step.
  destruct o as [u t'|u t'|t' h' p'|t' h' p']; cbn [top_of removes] in *.
  - exact E.
  - now rewrite F1.
  - destruct (eqb t' t); [|exact E]. unfold sessions in E. destruct (aget t s); [|destruct E]. apply in_add. now left.
  - destruct (eqb t' t) eqn:Q; [|exact E]. apply filter_In. split; [exact E|]. apply negb_true_iff. destruct (peer_eqb (h', p') (h, p)) eqn:W; [|reflexivity].
    exfalso. apply peer_eqb_spec in W. injection W as -> ->. apply eqb_true in Q. subst t'. apply G. now left.
Qed.
Lemma connected a s t b h p c :
  forallb (fun o => negb (removes t o)) (b ++ c) = true -> ~ In (XGone t h p) c -> 0 < p < 2 ^ 16 ->
  In (h, p) (sessions t (after (a ++ XAdd s t :: b ++ XPar t h p :: c))).
Proof.
  intros F G P. rewrite forallb_app in F. apply andb_true_iff in F as [F1 F2].
  rewrite after_app. change (XAdd s t :: b ++ XPar t h p :: c) with ([XAdd s t] ++ b ++ XPar t h p :: c). rewrite map_app, truns_app.
  rewrite map_app, truns_app. cbn [map top_of]. unfold truns at 1. cbn [fold_left].
  apply (session_stays t h p c F2 G). rewrite sessions_step. rewrite eqb_refl.
  destruct (reader_stays t b F1 (truns (after a) [TAdd t])) as [x E].
  { unfold truns. cbn [fold_left tstep]. destruct (aget t (after a)) eqn:Q; [eauto|]. rewrite aget_aset_same. eauto. }
  cbn [map] in E. rewrite E. unfold to_u16. rewrite Z.mod_small by lia. apply in_add. right. split; [lia|reflexivity].
Qed.
Lemma nodup_sessions t l : NoDup (sessions t (after l)).
Proof.
  induction l as [|o l IH] using rev_ind; [constructor|]. rewrite after_app. cbn [map]. unfold truns. cbn [fold_left]. rewrite sessions_step.
  destruct (top_of o) as [t'|t'|t' h p|t' h p]; [exact IH|destruct (eqb t' t); [constructor|exact IH]| |].
  - destruct (eqb t' t); [|exact IH]. unfold sessions in IH. destruct (aget t (after l)); [now apply nodup_add|constructor].
  - destruct (eqb t' t); [|exact IH]. now apply NoDup_filter.
Qed.
Lemma other_topics t l o : about t o = false -> sessions t (after (l ++ [o])) = sessions t (after l).
Proof.
  intros N. rewrite after_app. cbn [map]. unfold truns. cbn [fold_left]. rewrite sessions_step. destruct o; cbn [about top_of] in *; rewrite ?N; reflexivity.
Qed.
(** Every session has been announced. *)
Lemma sessions_announced t l h p : In (h, p) (sessions t (after l)) -> exists q, In (XPar t h q) l /\ p = q mod 2 ^ 16 /\ p <> 0.
Proof.
  induction l as [|o l IH] using rev_ind; [intros []|]. rewrite after_app. cbn [map]. unfold truns. cbn [fold_left]. rewrite sessions_step.
  assert (K : In (h, p) (sessions t (after l)) -> exists q, In (XPar t h q) (l ++ [o]) /\ p = q mod 2 ^ 16 /\ p <> 0).
  { intros H. destruct (IH H) as (q & A & B). exists q. split; [apply in_or_app; now left|exact B]. }
  destruct o as [u t'|u t'|t' h' p'|t' h' p']; cbn [top_of].
  - exact K.
  - destruct (eqb t' t); [intros []|exact K].
  - destruct (eqb t' t) eqn:Q; [|exact K]. apply eqb_true in Q. subst t'. destruct (aget t (after l)) eqn:E; [|intros []].
    rewrite in_add. intros [H|[N H]]; [apply K; unfold sessions; now rewrite E|]. injection H as -> ->. exists p'. split; [apply in_or_app; right; now left|].
    split; [reflexivity|exact N].
  - destruct (eqb t' t); [|exact K]. intros H. apply filter_In in H as [H _]. now apply K.
Qed.
Lemma no_reader_stays t l : forallb (fun o => negb (creates t o)) l = true -> forall s, aget t s = None -> aget t (truns s (map top_of l)) = None.
Proof.
  induction l as [|o l IH]; intros F s E; [exact E|]. cbn [forallb] in F. apply andb_true_iff in F as [F1 F2]. apply negb_true_iff in F1.
  cbn [map]. unfold truns. cbn [fold_left]. apply (IH F2).
  destruct o as [u t'|u t'|t' h' p'|t' h' p']; cbn [top_of tstep creates] in *.
  - destruct (aget t' s) eqn:Q; [exact E|]. rewrite aget_aset_other by (apply eqb_false in F1; congruence). exact E.
  - rewrite aget_adel. destruct (eqb t t'); [reflexivity|exact E].
  - destruct (aget t' s) eqn:Q; [|exact E]. rewrite aget_aset_other; [exact E|]. intros ->. congruence.
  - destruct (aget t' s) eqn:Q; [|exact E]. rewrite aget_aset_other; [exact E|]. intros ->. congruence.
Qed.
Lemma deaf a s t c : forallb (fun o => negb (creates t o)) c = true -> sessions t (after (a ++ XRem s t :: c)) = [].
Proof.
  intros F. rewrite after_app. cbn [map top_of]. unfold truns. cbn [fold_left tstep]. fold (truns (adel t (after a)) (map top_of c)).
  unfold sessions. rewrite (no_reader_stays t c F); [reflexivity|]. rewrite aget_adel, eqb_refl. reflexivity.
Qed.
Lemma exist_app a b : exist (a ++ b) = fold_left exist1 b (exist a).
Proof. apply fold_left_app. Qed.
Lemma exist_stays s t c : ~ In (XRem s t) c -> forall l, In (s, t) l -> In (s, t) (fold_left exist1 c l).
Proof.
  induction c as [|o c IH]; intros N l H; [exact H|]. cbn [fold_left]. apply IH; [intros K; apply N; now right|].
  destruct o as [u t'|u t'|t' h' p'|t' h' p']; cbn [exist1]; [now right| |exact H|exact H].
  apply filter_In. split; [exact H|]. apply negb_true_iff. apply neq_eqb. intros E. injection E as <- <-. apply N. now left.
Qed.
Lemma other_deaf a s s' t c : In (s', t) (exist a) -> s' <> s -> ~ In (XRem s' t) c -> forallb (fun o => negb (creates t o)) c = true ->
  In (s', t) (exist (a ++ XRem s t :: c)) /\ sessions t (after (a ++ XRem s t :: c)) = [].
Proof.
  intros H N G F. split; [|now apply deaf]. rewrite exist_app. cbn [fold_left]. apply (exist_stays s' t c G). cbn [exist1]. apply filter_In. split; [exact H|].
  apply negb_true_iff. apply neq_eqb. congruence.
Qed.
