(** Proofs about the byte protocols of the services. *)
From Verif Require Import Base FrmModel FrmSpec.

(** ** Feeding *)
Lemma feed_app r a b : feed r (a ++ b) = let (r1, m1) := feed r a in let (r2, m2) := feed r1 b in (r2, m1 ++ m2).
Proof.
  revert r; induction a as [|x a IH]; intros r; cbn.
  - destruct (feed r b); reflexivity.
  - destruct (push r x) as [r'|m]; [apply IH|]. rewrite IH. destruct (feed reader0 a) as [r1 m1], (feed r1 b); reflexivity.
Qed.
Lemma segments_lemma segs r : feed_segments r segs = feed r (concat segs).
Proof.
  revert r; induction segs as [|s segs IH]; intros r; cbn; [reflexivity|]. rewrite feed_app. destruct (feed r s) as [r1 m1]. rewrite IH. reflexivity.
Qed.

(** ** Numbers *)
Lemma len_app a b : len (a ++ b) = (len a + len b)%Z.
Proof. unfold len. rewrite app_length. lia. Qed.
Lemma len_nonneg a : (0 <= len a)%Z.
Proof. unfold len. lia. Qed.
Lemma byte_of z : is_byte z -> byte z = z.
Proof. unfold is_byte, byte. intros. apply Z.mod_small. lia. Qed.
Lemma rd16_be16 z l : (0 <= z < 65536)%Z -> rd16 0 (be16 z ++ l) = z.
Proof. unfold rd16, be16, nth0, byte. cbn [nth app Nat.add]. intros. lia. Qed.
Lemma rd32_be32 z l : (0 <= z < 2 ^ 32)%Z -> rd32 0 (be32 z ++ l) = z.
Proof. unfold rd32, be32, nth0, byte. cbn [nth app Nat.add]. change (2 ^ 32)%Z with 4294967296%Z. intros. lia. Qed.

(** ** Reading one message *)
Lemma start_feed bs got : (len got + len bs < 8)%Z -> feed (RStart got) bs = (RStart (got ++ bs), []).
Proof.
  revert got; induction bs as [|b bs IH]; intros got L; cbn [feed].
  - rewrite app_nil_r. reflexivity.
  - assert (L2 : (len (got ++ [b]) + len bs < 8)%Z) by (rewrite len_app; unfold len in *; cbn [length] in *; lia).
    unfold push. destruct (Z.ltb_spec (len (got ++ [b])) 8); [|pose proof (len_nonneg bs); lia].
    rewrite IH by exact L2. rewrite <- app_assoc. reflexivity.
Qed.
Lemma start_done bs got : (len got < 8)%Z -> (len got + len bs = 8)%Z ->
  feed (RStart got) bs = (RRest (Z.max header_bytes (rd16 6 (got ++ bs))) (got ++ bs), []).
Proof.
  revert got; induction bs as [|b bs IH]; intros got L1 L2.
  - unfold len in *; cbn [length] in *; lia.
  - cbn [feed]. unfold push. assert (LA : len (got ++ [b]) = (len got + 1)%Z) by (rewrite len_app; reflexivity).
    assert (LB : len (b :: bs) = (len bs + 1)%Z) by (unfold len; cbn [length]; lia).
    destruct (Z.ltb_spec (len (got ++ [b])) 8).
    + rewrite IH by lia. rewrite <- app_assoc. reflexivity.
    + assert (bs = []) as -> by (destruct bs; [reflexivity|unfold len in *; cbn [length] in *; lia]). reflexivity.
Qed.
Lemma rest_feed size bs got : (len got + len bs < size)%Z -> feed (RRest size got) bs = (RRest size (got ++ bs), []).
Proof.
  revert got; induction bs as [|b bs IH]; intros got L; cbn [feed].
  - rewrite app_nil_r. reflexivity.
  - assert (L2 : (len (got ++ [b]) + len bs < size)%Z) by (rewrite len_app; unfold len in *; cbn [length] in *; lia).
    unfold push. destruct (Z.ltb_spec (len (got ++ [b])) size); [|pose proof (len_nonneg bs); lia].
    rewrite IH by exact L2. rewrite <- app_assoc. reflexivity.
Qed.
Definition after_header (hdr : list Z) (rest : list Z) : reader * list fmsg :=
  if (0 <? rd32 0 hdr)%Z then feed (RPay hdr (rd32 0 hdr) []) rest
  else let (r', ms) := feed reader0 rest in (r', fmsg_of hdr [] :: ms).
Lemma rest_done size bs rest got : (len got < size)%Z -> (len got + len bs = size)%Z ->
  feed (RRest size got) (bs ++ rest) = after_header (got ++ bs) rest.
Proof.
  revert got; induction bs as [|b bs IH]; intros got L1 L2.
  - unfold len in *; cbn [length] in *; lia.
  - cbn [feed app]. unfold push. assert (LA : len (got ++ [b]) = (len got + 1)%Z) by (rewrite len_app; reflexivity).
    assert (LB : len (b :: bs) = (len bs + 1)%Z) by (unfold len; cbn [length]; lia).
    destruct (Z.ltb_spec (len (got ++ [b])) size).
    + rewrite IH by lia. rewrite <- app_assoc. reflexivity.
    + assert (bs = []) as -> by (destruct bs; [reflexivity|unfold len in *; cbn [length] in *; lia]).
      cbn [app]. unfold after_header. destruct (0 <? rd32 0 (got ++ [b]))%Z; reflexivity.
Qed.
Lemma pay_feed hdr n bs got : (len got + len bs < n)%Z -> feed (RPay hdr n got) bs = (RPay hdr n (got ++ bs), []).
Proof.
  revert got; induction bs as [|b bs IH]; intros got L; cbn [feed].
  - rewrite app_nil_r. reflexivity.
  - assert (L2 : (len (got ++ [b]) + len bs < n)%Z) by (rewrite len_app; unfold len in *; cbn [length] in *; lia).
    unfold push. destruct (Z.ltb_spec (len (got ++ [b])) n); [|pose proof (len_nonneg bs); lia].
    rewrite IH by exact L2. rewrite <- app_assoc. reflexivity.
Qed.
Lemma pay_done hdr n bs rest got : (len got < n)%Z -> (len got + len bs = n)%Z ->
  feed (RPay hdr n got) (bs ++ rest) = let (r', ms) := feed reader0 rest in (r', fmsg_of hdr (got ++ bs) :: ms).
Proof.
  revert got; induction bs as [|b bs IH]; intros got L1 L2.
  - unfold len in *; cbn [length] in *; lia.
  - cbn [feed app]. unfold push. assert (LA : len (got ++ [b]) = (len got + 1)%Z) by (rewrite len_app; reflexivity).
    assert (LB : len (b :: bs) = (len bs + 1)%Z) by (unfold len; cbn [length]; lia).
    destruct (Z.ltb_spec (len (got ++ [b])) n).
    + rewrite IH by lia. rewrite <- app_assoc. reflexivity.
    + assert (bs = []) as -> by (destruct bs; [reflexivity|unfold len in *; cbn [length] in *; lia]).
      cbn [app]. reflexivity.
Qed.

(** A header of any size announced by the sender: 8 known bytes, then the rest. *)
Lemma hdr8_len size hs v t : len (hdr8 size hs v t) = 8%Z.
Proof. reflexivity. Qed.
Lemma hdr8_size size hs v t l : (0 <= size < 2 ^ 32)%Z -> rd32 0 (hdr8 size hs v t ++ l) = size.
Proof. intros. unfold hdr8. rewrite <- app_assoc. apply rd32_be32. assumption. Qed.
Lemma hdr8_hs size hs v t l : (0 <= hs < 65536)%Z -> rd16 6 (hdr8 size hs v t ++ l) = hs.
Proof. intros. apply (rd16_be16 hs l). assumption. Qed.
Lemma hdr8_msg size hs v t l pay : is_byte v -> is_byte t -> fmsg_of (hdr8 size hs v t ++ l) pay = FMsg v t pay.
Proof. intros V T. unfold fmsg_of, hdr8, nth0. cbn [nth app be32]. rewrite !byte_of by assumption. reflexivity. Qed.

Lemma read_header size hs v t ext rest : (0 <= size < 2 ^ 32)%Z -> (header_bytes <= hs < 65536)%Z -> len ext = (hs - 8)%Z ->
  feed reader0 (hdr8 size hs v t ++ ext ++ rest) = after_header (hdr8 size hs v t ++ ext) rest.
Proof.
  intros Z1 Z2 Z3. unfold header_bytes in Z2. rewrite feed_app. unfold reader0. rewrite start_done; [|reflexivity|reflexivity]. cbn [app].
  rewrite <- (app_nil_r (hdr8 size hs v t)) at 1. rewrite hdr8_hs by lia. unfold header_bytes. rewrite Z.max_r by lia.
  rewrite rest_done; rewrite ?hdr8_len; try lia.
  destruct (after_header (hdr8 size hs v t ++ ext) rest); reflexivity.
Qed.
Lemma read_header_prefix size hs v t p q ext rest : (0 <= size < 2 ^ 32)%Z -> (header_bytes <= hs < 65536)%Z -> len ext = (hs - 8)%Z ->
  hdr8 size hs v t ++ ext ++ rest = p ++ q -> (len p < hs)%Z -> snd (feed reader0 p) = [].
Proof.
  intros Z1 Z2 Z3 E L. unfold header_bytes in Z2.
  assert (S : p = firstn (length p) (hdr8 size hs v t ++ ext)).
  { transitivity (firstn (length p) (p ++ q)); [rewrite firstn_app, Nat.sub_diag, firstn_all; cbn; rewrite app_nil_r; reflexivity|].
    rewrite <- E, app_assoc, (firstn_app (length p) (hdr8 size hs v t ++ ext) rest).
    replace (length p - length (hdr8 size hs v t ++ ext)) with 0; [cbn; apply app_nil_r|].
    pose proof (len_app (hdr8 size hs v t) ext) as LA. rewrite hdr8_len in LA. unfold len in *. lia. }
  destruct (Z_lt_le_dec (len p) 8) as [L8|L8].
  - unfold reader0. rewrite start_feed by (unfold len at 1; cbn; exact L8). reflexivity.
  - assert (p = hdr8 size hs v t ++ skipn 8 p).
    { rewrite <- (firstn_skipn 8 p) at 1. f_equal. rewrite S, firstn_firstn, Nat.min_l by (unfold len in L8; lia). apply firstn_app_2 with (n := 0) (l1 := hdr8 size hs v t). }
    rewrite H, feed_app. unfold reader0. rewrite start_done; [|reflexivity|reflexivity]. cbn [app].
    rewrite <- (app_nil_r (hdr8 size hs v t)) at 1. rewrite hdr8_hs by lia. unfold header_bytes. rewrite Z.max_r by lia.
    rewrite rest_feed; [reflexivity|]. rewrite hdr8_len. rewrite H, len_app, hdr8_len in L. lia.
Qed.

(** ** Frames *)
(** A frame with a longer header than the known one. *)
Lemma frame_is m : frame m = frame_ext [] m.
Proof. unfold frame, header_of, frame_ext, hdr8. rewrite <- !app_assoc. reflexivity. Qed.

Lemma frame_read ext m rest : ext_ok ext -> msg_ok m -> small m ->
  feed reader0 (frame_ext ext m ++ rest) = let (r', ms) := feed reader0 rest in (r', m :: ms).
Proof.
  unfold ext_ok. intros X [V T] Sm. unfold small in Sm. fold (len (fm_pay m)) in Sm. unfold frame_ext. rewrite Z.mod_small by (pose proof (len_nonneg (fm_pay m)); lia).
  rewrite <- !app_assoc. rewrite (app_assoc (repeat 0%Z 8) ext).
  assert (SZ : (0 <= len (fm_pay m) < 2 ^ 32)%Z) by (pose proof (len_nonneg (fm_pay m)); lia).
  rewrite read_header; auto; try (unfold header_bytes in *; pose proof (len_nonneg ext); lia);
    [|rewrite len_app; unfold header_bytes; change (len (repeat 0%Z 8)) with 8%Z; lia].
  unfold after_header. rewrite !hdr8_size by exact SZ. destruct (Z.ltb_spec 0 (len (fm_pay m))).
  - rewrite pay_done; [|unfold len at 1; cbn; lia|unfold len at 1; cbn; lia]. rewrite hdr8_msg by assumption. destruct m; reflexivity.
  - assert (fm_pay m = []) as E by (destruct (fm_pay m); [reflexivity|unfold len in *; cbn [length] in *; lia]).
    rewrite E. cbn [app]. rewrite hdr8_msg by assumption. destruct m; cbn in *; subst; reflexivity.
Qed.
Lemma frame_prefix ext m p q : ext_ok ext -> msg_ok m -> small m -> frame_ext ext m = p ++ q -> q <> [] -> snd (feed reader0 p) = [].
Proof.
  unfold ext_ok. intros X [V T] Sm E Q. unfold small in Sm. fold (len (fm_pay m)) in Sm. unfold frame_ext in E.
  assert (SZ : (0 <= len (fm_pay m) < 2 ^ 32)%Z) by (pose proof (len_nonneg (fm_pay m)); lia).
  rewrite Z.mod_small in E by exact SZ.
  set (hs := (header_bytes + len ext)%Z) in *.
  assert (HS : (header_bytes <= hs < 65536)%Z) by (unfold hs; pose proof (len_nonneg ext); lia).
  assert (LX : len (repeat 0%Z 8 ++ ext) = (hs - 8)%Z) by (rewrite len_app; unfold hs, header_bytes; change (len (repeat 0%Z 8)) with 8%Z; lia).
  destruct (Z_lt_le_dec (len p) hs) as [L|L].
  - eapply (read_header_prefix (len (fm_pay m)) hs (fm_version m) (fm_type m) p q); eauto.
  - set (h := hdr8 (len (fm_pay m)) hs (fm_version m) (fm_type m)) in *.
    assert (LH : len (h ++ (repeat 0%Z 8 ++ ext)) = hs) by (rewrite len_app, LX; change (len h) with 8%Z; lia).
    rewrite app_assoc in E.
    assert (P : exists p2, p = (h ++ (repeat 0%Z 8 ++ ext)) ++ p2 /\ fm_pay m = p2 ++ q).
    { clear - E L LH. revert E L LH. generalize (h ++ (repeat 0%Z 8 ++ ext)) (fm_pay m). intros a b E L LH. subst hs. rewrite <- LH in L. clear LH.
      revert p E L; induction a as [|x a IH]; intros p E L; cbn in E; [exists p; auto|].
      destruct p as [|y p]; [unfold len in L; cbn in L; lia|]. cbn in E. injection E as <- E.
      destruct (IH p E) as [p2 [-> K]]; [unfold len in *; cbn [length] in L; lia|]. exists p2. auto. }
    destruct P as [p2 [-> EP]]. rewrite <- app_assoc. unfold h. rewrite read_header by auto. fold h.
    unfold after_header, h. rewrite !hdr8_size by exact SZ.
    assert (LP : len (fm_pay m) = (len p2 + len q)%Z) by (rewrite EP; apply len_app).
    assert (LQ : (0 < len q)%Z) by (destruct q; [congruence|unfold len; cbn [length]; lia]).
    pose proof (len_nonneg p2). destruct (Z.ltb_spec 0 (len (fm_pay m))); [|lia].
    rewrite pay_feed; [reflexivity|]. unfold len at 1; cbn [length]. lia.
Qed.

(** ** Streams of messages *)
Lemma stream_read ms rest : all_ok ms -> feed reader0 (concat (map frame ms) ++ rest) = let (r, l) := feed reader0 rest in (r, ms ++ l).
Proof.
  induction 1 as [|m ms [H1 H2] Hs IH]; cbn [map concat].
  - cbn. destruct (feed reader0 rest); reflexivity.
  - rewrite <- app_assoc, frame_is, (frame_read [] m); auto; [|reflexivity]. rewrite IH. destruct (feed reader0 rest); reflexivity.
Qed.
Lemma all_lemma ms segs : all_ok ms -> concat segs = concat (map frame ms) -> feed_segments reader0 segs = (reader0, ms).
Proof.
  intros A E. rewrite segments_lemma, E, <- (app_nil_r (concat _)), stream_read by exact A. cbn. rewrite app_nil_r. reflexivity.
Qed.
Lemma cut_stream ms p q : concat (map frame ms) = p ++ q ->
  exists ms1 ms2 t, ms = ms1 ++ ms2 /\ p = concat (map frame ms1) ++ t /\
    ((ms2 = [] /\ t = [] /\ q = []) \/ exists m ms3 q1, ms2 = m :: ms3 /\ frame m = t ++ q1 /\ q1 <> [] /\ q = q1 ++ concat (map frame ms3)).
Proof.
  revert p; induction ms as [|m ms IH]; intros p E; cbn [map concat] in E.
  - symmetry in E. apply app_eq_nil in E. destruct E as [-> ->]. exists [], [], []. repeat split; auto.
  - assert (C : (exists l, p = frame m ++ l /\ concat (map frame ms) = l ++ q) \/ (exists l, frame m = p ++ l /\ l <> [] /\ q = l ++ concat (map frame ms))).
    { clear IH. revert p E. generalize (frame m) (concat (map frame ms)). intros a; induction a as [|x a IHa]; intros b p E; cbn [app] in E.
      - left. exists p. auto.
      - destruct p as [|y p]; cbn [app] in E.
        + right. exists (x :: a). split; [reflexivity|]. split; [discriminate|]. cbn. symmetry. exact E.
        + injection E as <- E. destruct (IHa b p E) as [[l [-> K]]|[l [-> K]]]; [left; exists l; auto|right; exists l; auto]. }
    destruct C as [[l [-> K]]|[l [K1 [K2 K3]]]].
    + destruct (IH l K) as [ms1 [ms2 [t [-> [-> K2]]]]]. exists (m :: ms1), ms2, t. split; [reflexivity|]. split; [cbn [map concat]; rewrite app_assoc; reflexivity|exact K2].
    + exists [], (m :: ms), p. split; [reflexivity|]. split; [reflexivity|]. right. exists m, ms, l. auto.
Qed.
(** What has been handed over after a part of the stream: exactly the complete messages. *)
Lemma part_lemma ms segs q : all_ok ms -> concat (map frame ms) = concat segs ++ q ->
  exists ms1 ms2, ms = ms1 ++ ms2 /\ snd (feed_segments reader0 segs) = ms1 /\
    (length q <= length (concat (map frame ms2)) /\ (ms2 <> [] -> length (concat (map frame (tl ms2))) < length q)).
Proof.
  intros A E. destruct (cut_stream ms (concat segs) q E) as [ms1 [ms2 [t [-> [P K]]]]].
  apply Forall_app in A. destruct A as [A1 A2]. exists ms1, ms2. split; [reflexivity|]. rewrite segments_lemma, P, stream_read by exact A1.
  destruct K as [[-> [-> ->]]|[m [ms3 [q1 [-> [K1 [K2 ->]]]]]]].
  - cbn. rewrite app_nil_r. repeat split; auto. congruence.
  - inversion A2 as [|? ? [M1 M2] A3]; subst. rewrite frame_is in K1.
    pose proof (frame_prefix [] m t q1 eq_refl M1 M2 K1 K2) as F. destruct (feed reader0 t) as [r l]. cbn in F. subst l.
    split; [cbn; apply app_nil_r|]. cbn [map concat tl]. rewrite frame_is, K1, !app_length. split; [lia|]. intros _. destruct q1; [congruence|cbn; lia].
Qed.

(** ** Large payloads *)
Lemma after_header_head hdr rest : (0 < rd32 0 hdr)%Z -> (rd32 0 hdr <= len rest)%Z ->
  exists ms, snd (after_header hdr rest) = fmsg_of hdr (firstn (Z.to_nat (rd32 0 hdr)) rest) :: ms.
Proof.
  intros P L. unfold after_header. destruct (Z.ltb_spec 0 (rd32 0 hdr)); [|lia].
  assert (LF : len (firstn (Z.to_nat (rd32 0 hdr)) rest) = rd32 0 hdr) by (unfold len in *; rewrite firstn_length; lia).
  pose proof (pay_done hdr (rd32 0 hdr) (firstn (Z.to_nat (rd32 0 hdr)) rest) (skipn (Z.to_nat (rd32 0 hdr)) rest) [] P) as H1.
  rewrite firstn_skipn in H1. rewrite H1 by (rewrite LF; reflexivity).
  destruct (feed reader0 _) as [r ms]. exists ms. reflexivity.
Qed.
Lemma large_first m : msg_ok m -> (2 ^ 32 <= len (fm_pay m))%Z ->
  exists ms, snd (feed reader0 (frame m)) = FMsg (fm_version m) (fm_type m) (firstn (Z.to_nat (len (fm_pay m) mod 2 ^ 32)) (fm_pay m)) :: ms.
Proof.
  intros [V T] L. rewrite frame_is. unfold frame_ext. set (z := (len (fm_pay m) mod 2 ^ 32)%Z).
  assert (SZ : (0 <= z < 2 ^ 32)%Z) by (unfold z; apply Z.mod_pos_bound; lia).
  rewrite read_header; auto; [|unfold header_bytes, len; cbn; lia].
  destruct (Z.eq_dec z 0) as [E|E].
  - rewrite E. unfold after_header. rewrite !hdr8_size by lia. cbn [Z.ltb Z.compare].
    destruct (feed reader0 (fm_pay m)) as [r ms]. exists ms. cbn [snd Z.to_nat firstn]. rewrite hdr8_msg by assumption. reflexivity.
  - edestruct (after_header_head (hdr8 z (header_bytes + len []) (fm_version m) (fm_type m) ++ repeat 0%Z 8 ++ []) (fm_pay m)) as [ms K].
    + rewrite hdr8_size by exact SZ. lia.
    + rewrite hdr8_size by exact SZ. lia.
    + exists ms. rewrite K. rewrite hdr8_msg by assumption. rewrite hdr8_size by exact SZ. reflexivity.
Qed.
Lemma large_lemma m : msg_ok m -> (2 ^ 32 <= Z.of_nat (length (fm_pay m)))%Z ->
  exists m' ms, snd (feed_segments reader0 [frame m]) = m' :: ms /\ length (fm_pay m') < length (fm_pay m).
Proof.
  intros M L. rewrite segments_lemma. cbn [concat]. rewrite app_nil_r. destruct (large_first m M L) as [ms K]. rewrite K.
  eexists. exists ms. split; [reflexivity|]. cbn [fm_pay]. rewrite firstn_length. unfold len in *.
  assert (Z.of_nat (length (fm_pay m)) mod 2 ^ 32 < 2 ^ 32)%Z by (apply Z.mod_pos_bound; lia).
  assert (0 <= Z.of_nat (length (fm_pay m)) mod 2 ^ 32)%Z by (apply Z.mod_pos_bound; lia). lia.
Qed.

(** ** Negotiation *)
Lemma choice_lemma smin smax cmin cmax : is_byte cmin -> is_byte cmax ->
  match server_choice smin smax (handshake_request cmin cmax) with
  | Some v => common smin smax cmin cmax v /\ forall w, common smin smax cmin cmax w -> (w <= v)%Z
  | None => forall w, ~ common smin smax cmin cmax w
  end.
Proof.
  intros B1 B2. unfold server_choice, handshake_request, common. cbn [fm_type fm_pay nth0 nth]. rewrite !byte_of by assumption.
  cbn [negb Z.eqb Pos.eqb mt_handshake_request]. destruct (Z.leb_spec (Z.max cmin smin) (Z.min cmax smax)); [split; intros; lia|intros w C; lia].
Qed.
Lemma session_lemma cmin cmax : is_byte cmin -> is_byte cmax ->
  match server_choice v_min v_max (handshake_request cmin cmax) with
  | Some v => v = 1%Z /\ (cmin <= 1 <= cmax)%Z /\ client_accepts v_min v_max (handshake_response v) = Some v
  | None => ~ (cmin <= 1 <= cmax)%Z
  end.
Proof.
  intros B1 B2. pose proof (choice_lemma v_min v_max cmin cmax B1 B2) as H. unfold common, v_min, v_max in *.
  destruct (server_choice 1 1 (handshake_request cmin cmax)) as [v|].
  - assert (v = 1%Z) as -> by lia. split; [reflexivity|]. split; [lia|]. reflexivity.
  - intros C. apply (H 1%Z). lia.
Qed.
Lemma refuse_lemma m : fm_type m <> mt_handshake_request -> server_choice v_min v_max m = None.
Proof. intros N. unfold server_choice. destruct (Z.eqb_spec (fm_type m) mt_handshake_request); [contradiction|reflexivity]. Qed.

(** ** Legacy protocol *)
Definition v0_inv (req : list Z) (s : v0) : Prop :=
  (v_calls s = [] /\ v_req s ++ match v_read s with Some d => d | None => [] end ++ v_sock s = req /\
     (v_read s = None -> v_sock s <> []))
  \/ s = V0 [] [] None [req].
Lemma max_length_pos : exists n, max_length = Datatypes.S n.
Proof. exists (Z.to_nat 65535). unfold max_length. rewrite <- Z2Nat.inj_succ by lia. reflexivity. Qed.
Lemma v0_inv_step req op s : is_arrive op = false -> v0_inv req s -> v0_inv req (v0_step op s).
Proof.
  intros A [[C [E N]]| ->]; [|destruct op; [discriminate| |]; right; reflexivity].
  destruct s as [sock rq rd calls]. destruct op; [discriminate| |]; unfold v0_inv; cbn [v0_step v_read v_sock v_req v_calls] in *.
  - destruct rd as [d|]; [left; auto|]. destruct sock as [|b sock]; [left; auto|]. left.
    cbn [v_req v_read v_sock v_calls]. rewrite firstn_skipn. repeat split; auto. discriminate.
  - destruct rd as [d|]; [|left; auto]. destruct sock as [|b sock]; cbn [v_req v_read v_sock v_calls] in *.
    + right. rewrite app_nil_r in E. rewrite C, E. reflexivity.
    + left. rewrite <- app_assoc. repeat split; auto. discriminate.
Qed.
Lemma v0_inv_run req ops s : forallb (fun op => negb (is_arrive op)) ops = true -> v0_inv req s -> v0_inv req (v0_run ops s).
Proof.
  revert s; induction ops as [|op ops IH]; intros s F H; cbn in *; [exact H|]. apply andb_true_iff in F. destruct F as [F1 F2].
  apply IH; auto. apply v0_inv_step; auto. destruct (is_arrive op); [discriminate|reflexivity].
Qed.
(** Once the whole request is there before the session reads, one callback with exactly it. *)
Lemma v0_whole_lemma req ops : req <> [] -> forallb (fun op => negb (is_arrive op)) ops = true ->
  v_calls (v0_run (VArrive req :: ops) v0_init) = [] \/ v_calls (v0_run (VArrive req :: ops) v0_init) = [req].
Proof.
  intros N F. change (v0_run (VArrive req :: ops) v0_init) with (v0_run ops (V0 req [] None [])).
  destruct (v0_inv_run req ops (V0 req [] None []) F) as [[C _]|E]; [left; cbn; auto|left; exact C|right; rewrite E; reflexivity].
Qed.
(** ... and after enough rounds of reading and handling it has come. *)
Lemma rounds_quiet n : forallb (fun op => negb (is_arrive op)) (rounds n) = true.
Proof. induction n; cbn; auto. Qed.
Lemma v0_round req sock rq n : sock <> [] -> rq ++ sock = req -> length sock <= n * max_length ->
  v0_run (rounds n) (V0 sock rq None []) = V0 [] [] None [req].
Proof.
  revert sock rq; induction n as [|n IH]; intros sock rq N E L.
  - destruct sock; [congruence|cbn in L; lia].
  - cbn [rounds v0_run fold_left]. destruct sock as [|b sock]; [congruence|]. cbn [v0_step v_read v_sock v_req v_calls].
    remember (skipn max_length (b :: sock)) as rest. destruct rest as [|x rest].
    + assert (F : firstn max_length (b :: sock) = b :: sock) by (rewrite <- (firstn_skipn max_length (b :: sock)) at 2; rewrite <- Heqrest, app_nil_r; reflexivity).
      rewrite F, E. cbn [app]. clear. change (v0_run (rounds n) (V0 [] [] None [req]) = V0 [] [] None [req]).
      induction n; cbn; auto.
    + change (v0_run (rounds n) (V0 (x :: rest) (rq ++ firstn max_length (b :: sock)) None []) = V0 [] [] None [req]).
      apply IH; [discriminate| |].
      * rewrite <- app_assoc, Heqrest, firstn_skipn. exact E.
      * rewrite Heqrest, skipn_length. cbn [Nat.mul] in L. lia.
Qed.
Lemma v0_answered_lemma req n : req <> [] -> length req <= n * max_length ->
  v_calls (v0_run (VArrive req :: rounds n) v0_init) = [req].
Proof.
  intros N L. change (v0_run (VArrive req :: rounds n) v0_init) with (v0_run (rounds n) (V0 req [] None [])).
  rewrite (v0_round req req [] n N eq_refl L). reflexivity.
Qed.
Lemma v0_read_all sock rq c : sock <> [] -> length sock <= max_length -> v0_step VRead (V0 sock rq None c) = V0 [] rq (Some sock) c.
Proof.
  intros N L. destruct sock as [|x l]; [congruence|]. cbn [v0_step v_read v_sock v_req v_calls].
  rewrite skipn_all2, firstn_all2 by exact L. reflexivity.
Qed.
(** Any request of at least two bytes can be torn apart. *)
Lemma v0_torn_lemma a b : a <> [] -> b <> [] -> length a <= max_length -> length b <= max_length ->
  exists ops, arrived ops = a ++ b /\ v_calls (v0_run ops v0_init) = [a; b].
Proof.
  intros A B LA LB. exists [VArrive a; VRead; VHandle; VArrive b; VRead; VHandle]. split; [cbn; rewrite app_nil_r; reflexivity|].
  unfold v0_run. cbn [fold_left]. change (v0_step (VArrive a) v0_init) with (V0 a [] None []). rewrite v0_read_all by assumption.
  change (v0_step (VArrive b) (v0_step VHandle (V0 [] [] (Some a) []))) with (V0 b [] None [a]). rewrite v0_read_all by assumption. reflexivity.
Qed.
(** An empty request produces no callback at all. *)
Lemma v0_empty_lemma ops : arrived ops = [] -> v_calls (v0_run ops v0_init) = [].
Proof.
  assert (G : forall ops s, arrived ops = [] -> s = v0_init -> v0_run ops s = v0_init).
  { clear. intros ops; induction ops as [|op ops IH]; intros s E ->; [reflexivity|]. cbn in E. apply app_eq_nil in E. destruct E as [E1 E2].
    cbn [v0_run fold_left]. apply IH; [exact E2|]. destruct op; [subst bs|..]; reflexivity. }
  intros E. rewrite (G ops v0_init E eq_refl). reflexivity.
Qed.
(** No byte is invented, lost or reordered. *)
Lemma v0_bytes_lemma ops : exists rest, arrived ops = concat (v_calls (v0_run ops v0_init)) ++ rest.
Proof.
  set (I := fun (s : v0) (a : list Z) => a = concat (v_calls s) ++ v_req s ++ match v_read s with Some d => d | None => [] end ++ v_sock s).
  assert (G : forall ops s a, I s a -> I (v0_run ops s) (a ++ arrived ops)).
  { clear ops. intros ops; induction ops as [|op ops IH]; intros s a H; cbn [v0_run fold_left arrived flat_map]; [rewrite app_nil_r; exact H|].
    rewrite app_assoc. apply IH. unfold I in *. clear IH. destruct s as [sock rq rd calls]. destruct op; cbn [v0_step v_read v_sock v_req v_calls] in *.
    - rewrite H, <- !app_assoc. reflexivity.
    - rewrite app_nil_r. destruct rd as [d|]; [exact H|]. destruct sock; [exact H|]. cbn [v_req v_read v_sock v_calls]. rewrite firstn_skipn. exact H.
    - rewrite app_nil_r. destruct rd as [d|]; [|exact H]. destruct sock; cbn [v_req v_read v_sock v_calls].
      + rewrite concat_app. cbn [concat]. rewrite !app_nil_r in *. exact H.
      + rewrite <- app_assoc. exact H. }
  specialize (G ops v0_init [] eq_refl). unfold I in G. rewrite app_nil_l in G. eexists. exact G.
Qed.

(** Responses of the legacy protocol carry their length. *)
Lemma feed0_app r a b : feed0 r (a ++ b) = let (r1, m1) := feed0 r a in let (r2, m2) := feed0 r1 b in (r2, m1 ++ m2).
Proof.
  revert r; induction a as [|x a IH]; intros r; cbn.
  - destruct (feed0 r b); reflexivity.
  - destruct (push0 r x) as [r'|m]; [apply IH|]. rewrite IH. destruct (feed0 (SHdr []) a) as [r1 m1], (feed0 r1 b); reflexivity.
Qed.
Lemma pay0_done n bs rest got : (len got < n)%Z -> (len got + len bs = n)%Z ->
  feed0 (SPay n got) (bs ++ rest) = let (r', ms) := feed0 (SHdr []) rest in (r', (got ++ bs) :: ms).
Proof.
  revert got; induction bs as [|b bs IH]; intros got L1 L2.
  - unfold len in *; cbn [length] in *; lia.
  - cbn [feed0 app]. unfold push0. assert (LA : len (got ++ [b]) = (len got + 1)%Z) by (rewrite len_app; reflexivity).
    assert (LB : len (b :: bs) = (len bs + 1)%Z) by (unfold len; cbn [length]; lia).
    destruct (Z.ltb_spec (len (got ++ [b])) n).
    + rewrite IH by lia. rewrite <- app_assoc. reflexivity.
    + assert (bs = []) as -> by (destruct bs; [reflexivity|unfold len in *; cbn [length] in *; lia]). reflexivity.
Qed.
Lemma hdr0_done bs rest got : (len got < 16)%Z -> (len got + len bs = 16)%Z ->
  feed0 (SHdr got) (bs ++ rest) =
    if (0 <? rd32 0 (got ++ bs))%Z then feed0 (SPay (rd32 0 (got ++ bs)) []) rest
    else let (r', ms) := feed0 (SHdr []) rest in (r', [] :: ms).
Proof.
  revert got; induction bs as [|b bs IH]; intros got L1 L2.
  - unfold len in *; cbn [length] in *; lia.
  - cbn [feed0 app]. unfold push0. assert (LA : len (got ++ [b]) = (len got + 1)%Z) by (rewrite len_app; reflexivity).
    assert (LB : len (b :: bs) = (len bs + 1)%Z) by (unfold len; cbn [length]; lia).
    destruct (Z.ltb_spec (len (got ++ [b])) 16).
    + rewrite IH by lia. rewrite <- app_assoc. reflexivity.
    + assert (bs = []) as -> by (destruct bs; [reflexivity|unfold len in *; cbn [length] in *; lia]). cbn [app]. destruct (0 <? rd32 0 (got ++ [b]))%Z; reflexivity.
Qed.
Lemma frame0_read pay rest : (Z.of_nat (length pay) < 2 ^ 32)%Z ->
  feed0 (SHdr []) (frame0 pay ++ rest) = let (r', ms) := feed0 (SHdr []) rest in (r', pay :: ms).
Proof.
  intros L. unfold frame0. assert (SZ : (0 <= len pay < 2 ^ 32)%Z) by (unfold len; lia). rewrite Z.mod_small by exact SZ.
  rewrite (app_assoc (be32 _)), <- app_assoc. rewrite hdr0_done; [|reflexivity|reflexivity]. cbn [app]. rewrite !rd32_be32 by exact SZ.
  destruct (Z.ltb_spec 0 (len pay)).
  - apply pay0_done; unfold len; cbn [length]; unfold len in *; lia.
  - assert (pay = []) as -> by (destruct pay; [reflexivity|unfold len in *; cbn [length] in *; lia]). reflexivity.
Qed.
Lemma answers0_lemma pays segs : Forall (fun p => (Z.of_nat (length p) < 2 ^ 32)%Z) pays -> concat segs = concat (map frame0 pays) ->
  snd (feed0_segments segs) = pays.
Proof.
  unfold feed0_segments.
  intros A E.
  assert (G : forall segs r l, fold_left (fun a seg => let (r, l) := feed0 (fst a) seg in (r, snd a ++ l)) segs (r, l)
    = let (r1, l1) := feed0 r (concat segs) in (r1, l ++ l1)).
  { clear. intros segs; induction segs as [|s segs IH]; intros r l; cbn [fold_left concat]; [cbn; rewrite app_nil_r; reflexivity|].
    cbn [fst snd]. rewrite feed0_app. destruct (feed0 r s) as [r1 l1]. rewrite IH. destruct (feed0 r1 (concat segs)). rewrite app_assoc. reflexivity. }
  rewrite G, E. clear - A.
  assert (K : feed0 (SHdr []) (concat (map frame0 pays)) = (SHdr [], pays)).
  { induction A as [|p ps H A IH]; cbn [map concat]; [reflexivity|]. rewrite frame0_read by exact H. rewrite IH. reflexivity. }
  rewrite K. reflexivity.
Qed.

Lemma large_exists : exists m, msg_ok m /\ (2 ^ 32 <= Z.of_nat (length (fm_pay m)))%Z.
Proof.
  exists (FMsg 1 mt_service_request (repeat 0%Z (Z.to_nat (2 ^ 32)))). split.
  - split; unfold is_byte, mt_service_request; cbn; lia.
  - cbn [fm_pay]. rewrite repeat_length, Z2Nat.id by lia. lia.
Qed.
Lemma large_refuted : ~ (forall m, msg_ok m -> snd (feed_segments reader0 [frame m]) = [m]).
Proof.
  intros H. destruct large_exists as [m [M L]]. destruct (large_lemma m M L) as [m' [ms [E K]]]. rewrite H in E by exact M.
  injection E as -> _. lia.
Qed.
Lemma ext_lemma l segs : Forall (fun em => ext_ok (fst em) /\ msg_ok (snd em) /\ small (snd em)) l ->
  concat segs = concat (map (fun em => frame_ext (fst em) (snd em)) l) -> feed_segments reader0 segs = (reader0, map snd l).
Proof.
  intros A E. rewrite segments_lemma, E. clear E. induction A as [|[e m] l [H1 [H2 H3]] A IH]; cbn [map concat fst snd]; [reflexivity|].
  rewrite frame_read by assumption. rewrite IH. reflexivity.
Qed.
Lemma v0_refuted : ~ (forall req ops, req <> [] -> arrived ops = req -> v_calls (v0_run ops v0_init) = [] \/ v_calls (v0_run ops v0_init) = [req]).
Proof.
  intros H. destruct (v0_torn_lemma [1%Z] [2%Z]) as [ops [A C]]; try discriminate; try (destruct max_length_pos as [n ->]; cbn; lia).
  specialize (H [1; 2]%Z ops). rewrite C in H. destruct H; try discriminate. exact A.
Qed.
