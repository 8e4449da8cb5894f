(** The generic part: varints, no access outside the buffer, and the round trip of any
    message over any descriptor. *)
From Verif Require Import Base PbModel PbSpec.
From Coq Require Import Lia ZArith.

(** ** Lengths *)
Lemma len_app a b : len (a ++ b) = (len a + len b)%Z.
Proof. unfold len. rewrite app_length. lia. Qed.
Lemma len_nonneg a : (0 <= len a)%Z.
Proof. unfold len. lia. Qed.
Lemma len_cons x a : len (x :: a) = (1 + len a)%Z.
Proof. unfold len. cbn [length]. lia. Qed.

(** ** Varints: the encoder *)
Lemma enc_high_ok n : forall byte high, (0 <= byte < 128)%Z -> (0 <= high < 128 ^ Z.of_nat n)%Z ->
  varint (byte + 128 * high)%Z (enc_high n byte high).
Proof.
  induction n as [|n IH]; intros byte high Hb Hh.
  - cbn in Hh. assert (high = 0)%Z by lia. subst. cbn [enc_high]. rewrite Z.add_0_r. now constructor.
  - cbn [enc_high]. destruct (Z.eqb_spec high 0) as [->|N].
    + rewrite Z.add_0_r. now constructor.
    + pose proof (Z.div_mod high 128 ltac:(lia)) as E. pose proof (Z.mod_pos_bound high 128 ltac:(lia)).
      constructor; [lia|lia|]. 
      replace high with (high mod 128 + 128 * (high / 128))%Z at 1 by lia.
      apply IH; [lia|]. split; [apply Z.div_pos; lia|].
      apply Z.div_lt_upper_bound; [lia|].
      rewrite Nat2Z.inj_succ, Z.pow_succ_r in Hh by lia. lia.
Qed.
Lemma enc_low_ok n : forall byte low bs b, (0 <= byte < 128)%Z -> (0 <= low < 128 ^ Z.of_nat n)%Z ->
  enc_low n byte low 0 = (bs, b) -> varint (byte + 128 * low)%Z (bs ++ [b]).
Proof.
  induction n as [|n IH]; intros byte low bs b Hb Hh E.
  - cbn in Hh. assert (low = 0)%Z by lia. subst. cbn [enc_low] in E. injection E as <- <-.
    rewrite Z.add_0_r. now constructor.
  - cbn [enc_low] in E. cbn [Z.eqb] in E. rewrite andb_true_r in E.
    destruct (Z.eqb_spec low 0) as [->|N].
    + injection E as <- <-. rewrite Z.add_0_r. now constructor.
    + destruct (enc_low n (low mod 128) (low / 128) 0) as [bs' b'] eqn:E'. injection E as <- <-.
      pose proof (Z.div_mod low 128 ltac:(lia)) as D. pose proof (Z.mod_pos_bound low 128 ltac:(lia)).
      cbn [app]. constructor; [lia|lia|].
      replace low with (low mod 128 + 128 * (low / 128))%Z at 1 by lia.
      eapply IH; [lia| |exact E']. split; [apply Z.div_pos; lia|].
      apply Z.div_lt_upper_bound; [lia|].
      rewrite Nat2Z.inj_succ, Z.pow_succ_r in Hh by lia. lia.
Qed.
Lemma enc_varint_ok v : (0 <= v < 2 ^ 64)%Z -> varint v (enc_varint v).
Proof.
  intros Hv. unfold enc_varint. destruct (Z.leb_spec v 127) as [L|L]; [constructor; lia|].
  unfold enc_varint_32.
  assert (Hl := Z.mod_pos_bound v (2 ^ 32) ltac:(lia)).
  assert (Hv' := Z.div_mod v (2 ^ 32) ltac:(lia)).
  assert (Hh : (0 <= v / 2 ^ 32 < 2 ^ 32)%Z).
  { split; [apply Z.div_pos; lia|]. apply Z.div_lt_upper_bound; lia. }
  remember (v mod 2 ^ 32)%Z as low. remember (v / 2 ^ 32)%Z as high. clear Heqlow Heqhigh.
  pose proof (Z.div_mod low 128 ltac:(lia)) as D. pose proof (Z.mod_pos_bound low 128 ltac:(lia)) as M.
  destruct (Z.eqb_spec high 0) as [->|N].
  - destruct (enc_low 4 (low mod 128) (low / 128) 0) as [bs b] eqn:E.
    replace v with (low mod 128 + 128 * (low / 128))%Z by lia.
    eapply enc_low_ok; [lia| |exact E]. split; [apply Z.div_pos; lia|].
    apply Z.div_lt_upper_bound; [lia|]. cbn. lia.
  - assert (B : Z.eqb high 0 = false) by now apply Z.eqb_neq.
    cbn [enc_low]. rewrite B, !andb_false_r.
    set (l1 := (low / 128)%Z) in *. set (l2 := (l1 / 128)%Z). set (l3 := (l2 / 128)%Z). set (l4 := (l3 / 128)%Z).
    assert (D1 := Z.div_mod l1 128 ltac:(lia)). assert (M1 := Z.mod_pos_bound l1 128 ltac:(lia)).
    assert (D2 := Z.div_mod l2 128 ltac:(lia)). assert (M2 := Z.mod_pos_bound l2 128 ltac:(lia)).
    assert (D3 := Z.div_mod l3 128 ltac:(lia)). assert (M3 := Z.mod_pos_bound l3 128 ltac:(lia)).
    fold l2 in D1. fold l3 in D2. fold l4 in D3.
    assert (0 <= l4 < 16)%Z by lia.
    assert (S4 : (l4 mod 128 = l4)%Z) by (apply Z.mod_small; lia).
    assert (D8 := Z.div_mod high 8 ltac:(lia)). assert (M8 := Z.mod_pos_bound high 8 ltac:(lia)).
    cbn [app]. fold l2 l3 l4.
    replace v with (low mod 128 + 128 * (l1 mod 128 + 128 * (l2 mod 128 + 128 * (l3 mod 128 + 128 *
      ((l3 / 128) mod 128 + 16 * high)))))%Z by (fold l4; rewrite S4; lia).
    fold l4. rewrite S4.
    repeat (apply vi_more; [lia|lia|]).
    replace (l4 + 16 * high)%Z with (l4 + high mod 8 * 16 + 128 * (high / 8))%Z by lia.
    apply enc_high_ok; [lia|]. split; [apply Z.div_pos; lia|]. apply Z.div_lt_upper_bound; [lia|]. cbn. lia.
Qed.
Lemma varint_nonneg v bs : varint v bs -> (0 <= v)%Z.
Proof. induction 1; lia. Qed.
Lemma varint_fun v bs bs' : varint v bs -> varint v bs' -> bs = bs'.
Proof.
  intros H. revert bs'. induction H as [b Hb|b v bs Hb Hv H IH]; intros bs' H'.
  - inversion H'; subst; [reflexivity|lia].
  - inversion H'; subst; [lia|]. assert (b0 = b /\ v0 = v) as [-> ->] by lia. f_equal. now apply IH.
Qed.

(** ** Varints: the decoder *)
Lemma rd1_cons b r left : (0 <= b < 256)%Z -> (0 < left)%Z -> rd1 (Stream (b :: r) left) = Ok (b, Stream r (left - 1)).
Proof.
  intros Hb H. unfold rd1. cbn [s_left s_rest]. destruct (Z.eqb_spec left 0); [lia|]. now rewrite Z.mod_small.
Qed.

Lemma varint_go_ok v bs : varint v bs -> forall n bitpos result rest left,
  (0 <= bitpos)%Z -> (0 <= v * 2 ^ bitpos < 2 ^ 64)%Z -> (64 <= bitpos + 7 * Z.of_nat n)%Z -> (bitpos < 64)%Z ->
  (len bs <= left)%Z ->
  varint_go n bitpos result (Stream (bs ++ rest) left) = Ok ((result + v * 2 ^ bitpos)%Z, Stream rest (left - len bs)).
Proof.
  induction 1 as [b Hb|b v bs Hb Hv H IH]; intros n bitpos result rest left H0 Hr Hn Hbp HL; rewrite len_cons in HL;
    (destruct n as [|n]; [lia|]); cbn [varint_go app].
  - unfold len in HL. cbn in HL. rewrite rd1_cons by lia. cbn [bind].
    assert (X : ((63 <=? bitpos)%Z && negb (Z.eqb (b / 2) 0))%bool = false).
    { destruct (Z.leb_spec 63 bitpos) as [L|L]; [|reflexivity]. assert (bitpos = 63)%Z by lia. subst. cbn [andb].
      assert (b < 2)%Z by lia. rewrite Z.div_small by lia. reflexivity. }
    rewrite X. unfold cont. destruct (Z.leb_spec 128 b); [lia|]. rewrite Z.mod_small by lia. reflexivity.
  - pose proof (len_nonneg bs). rewrite rd1_cons by lia. cbn [bind].
    assert (P : (0 < 2 ^ bitpos)%Z) by (apply Z.pow_pos_nonneg; lia).
    assert (bitpos < 57)%Z.
    { destruct (Z.lt_ge_cases bitpos 57) as [L|L]; [exact L|].
      assert (2 ^ 57 <= 2 ^ bitpos)%Z by (apply Z.pow_le_mono_r; lia). nia. }
    destruct (Z.leb_spec 63 bitpos) as [L|L]; [lia|]. cbn [andb].
    unfold cont. destruct (Z.leb_spec 128 (b + 128)); [|lia].
    replace ((b + 128) mod 128)%Z with b by (rewrite <- (Z.mul_1_l 128) at 1; rewrite Z.mod_add by lia; rewrite Z.mod_small; lia).
    rewrite IH.
    + f_equal. f_equal; [|rewrite len_cons; f_equal; lia]. rewrite Z.pow_add_r by lia. change (2 ^ 7)%Z with 128%Z. lia.
    + lia.
    + rewrite Z.pow_add_r by lia. change (2 ^ 7)%Z with 128%Z. nia.
    + lia.
    + lia.
    + lia.
Qed.
Lemma dec_varint_ok v bs rest left : varint v bs -> (v < 2 ^ 64)%Z -> (len bs <= left)%Z ->
  dec_varint (Stream (bs ++ rest) left) = Ok (v, Stream rest (left - len bs)).
Proof.
  intros H Hv HL. unfold dec_varint. rewrite (varint_go_ok v bs H); try lia.
  - f_equal. f_equal. change (2 ^ 0)%Z with 1%Z. lia.
  - change (2 ^ 0)%Z with 1%Z. pose proof (varint_nonneg _ _ H). lia.
Qed.
Lemma varint32_go_ok v bs : varint v bs -> forall n bitpos result rest left,
  (bitpos = 7 \/ bitpos = 14 \/ bitpos = 21 \/ bitpos = 28)%Z -> (0 <= v * 2 ^ bitpos < 2 ^ 32)%Z -> (5 <= bitpos / 7 + Z.of_nat n)%Z ->
  (len bs <= left)%Z ->
  varint32_go n bitpos result (Stream (bs ++ rest) left) = Ok ((result + v * 2 ^ bitpos)%Z, Stream rest (left - len bs)).
Proof.
  induction 1 as [b Hb|b v bs Hb Hv H IH]; intros n bitpos result rest left Hbp Hr Hn HL; rewrite len_cons in HL;
    (destruct n as [|n]; [destruct Hbp as [->|[->|[->| ->]]]; cbn in Hn; lia|]); cbn [varint32_go app].
  - unfold len in HL. cbn in HL. rewrite rd1_cons by lia. cbn [bind].
    assert (C : cont b = false) by (unfold cont; apply Z.leb_gt; lia).
    destruct (Z.leb_spec 32 bitpos) as [L|L]; [lia|].
    destruct (Z.eqb_spec bitpos 28) as [->|N].
    + assert (b < 16)%Z by lia.
      rewrite (Z.mod_small b 128), (Z.mod_small b 16), (Z.div_small b 16) by lia. cbn [Z.eqb negb andb bind].
      rewrite C. reflexivity.
    + rewrite Z.mod_small by lia. cbn [bind]. rewrite C. reflexivity.
  - pose proof (len_nonneg bs). rewrite rd1_cons by lia. cbn [bind].
    assert (C : cont (b + 128) = true) by (unfold cont; apply Z.leb_le; lia).
    assert (M : ((b + 128) mod 128 = b)%Z).
    { rewrite <- (Z.mul_1_l 128) at 1; rewrite Z.mod_add by lia; rewrite Z.mod_small; lia. }
    destruct (Z.leb_spec 32 bitpos) as [L|L]; [lia|].
    destruct (Z.eqb_spec bitpos 28) as [->|N]; [lia|].
    cbn [bind]. rewrite C, M.
    assert (bitpos / 7 + 1 = (bitpos + 7) / 7)%Z by (destruct Hbp as [->|[->|[->| ->]]]; reflexivity).
    rewrite IH.
    + f_equal. f_equal; [|rewrite len_cons; f_equal; lia]. rewrite Z.pow_add_r by lia. change (2 ^ 7)%Z with 128%Z. lia.
    + lia.
    + rewrite Z.pow_add_r by lia. change (2 ^ 7)%Z with 128%Z. nia.
    + lia.
    + lia.
Qed.
Lemma dec_varint32_ok v bs rest left : varint v bs -> (v < 2 ^ 32)%Z -> (len bs <= left)%Z ->
  dec_varint32 (Stream (bs ++ rest) left) = Ok (v, Stream rest (left - len bs)).
Proof.
  intros H Hv HL. unfold dec_varint32. inversion H as [b Hb|b w bs' Hb Hw H']; subst.
  - rewrite len_cons in HL. unfold len in HL. cbn in HL. cbn [app]. rewrite rd1_cons by lia. cbn [bind].
    unfold cont. destruct (Z.leb_spec 128 v); [lia|]. reflexivity.
  - rewrite len_cons in HL. pose proof (len_nonneg bs'). cbn [app]. rewrite rd1_cons by lia. cbn [bind].
    assert (C : cont (b + 128) = true) by (unfold cont; apply Z.leb_le; lia). rewrite C.
    replace ((b + 128) mod 128)%Z with b by (rewrite <- (Z.mul_1_l 128) at 1; rewrite Z.mod_add by lia; rewrite Z.mod_small; lia).
    rewrite (varint32_go_ok w bs' H').
    + f_equal. f_equal; [change (2 ^ 7)%Z with 128%Z; lia|]. rewrite len_cons. f_equal. lia.
    + lia.
    + change (2 ^ 7)%Z with 128%Z. lia.
    + cbn. lia.
    + lia.
Qed.

(** ** No access outside the buffer *)
Definition byte (b : Z) : Prop := (0 <= b < 256)%Z.
Definition slack (s : stream) : Z := (len (s_rest s) - s_left s)%Z.
Definition good (s : stream) : Prop := (0 <= s_left s)%Z /\ (0 <= slack s)%Z.
(** [s'] is [s] after reading at least [k] bytes. *)
Definition adv (k : Z) (s s' : stream) : Prop :=
  (0 <= s_left s' <= s_left s - k)%Z /\ slack s' = slack s /\ exists p, s_rest s = p ++ s_rest s'.
Lemma adv_good k s s' : good s -> adv k s s' -> good s'.
Proof.
  unfold good, adv. intros (A & B) (C & D & p & E). split; lia.
Qed.
Lemma adv_trans k k' s s1 s2 : adv k s s1 -> adv k' s1 s2 -> adv (k + k') s s2.
Proof.
  unfold adv. intros (A & B & p & E) (C & D & q & G). split; [lia|]. split; [lia|].
  exists (p ++ q). rewrite E, G. apply app_assoc.
Qed.
Lemma adv_weak k k' s s' : adv k s s' -> (k' <= k)%Z -> adv k' s s'.
Proof. unfold adv. intros (A & B & C) L. split; [lia|]. split; [lia|exact C]. Qed.

(** The outcome is no fault, at least [k] bytes have been read, and the value satisfies [P]. *)
Definition safe {A} (k : Z) (s : stream) (P : A -> Prop) (r : res (A * stream)) : Prop :=
  match r with Ok (a, s') => adv k s s' /\ P a | Fail => True | Fault => False end.

Lemma len_skipn n (l : list Z) : (0 <= n <= len l)%Z -> len (skipn (Z.to_nat n) l) = (len l - n)%Z.
Proof. unfold len. intros H. rewrite skipn_length. lia. Qed.
Lemma len_firstn n (l : list Z) : (0 <= n <= len l)%Z -> len (firstn (Z.to_nat n) l) = n.
Proof. unfold len. intros H. rewrite firstn_length. lia. Qed.
Lemma rd_safe n s : good s -> (0 <= n)%Z -> safe n s (fun bs => len bs = n) (rd n s).
Proof.
  unfold good, slack. intros (A & B) Hn. unfold rd. destruct (Z.eqb_spec n 0) as [->|N].
  - cbn. split; [|reflexivity]. unfold adv. split; [lia|]. split; [lia|now exists []].
  - destruct (Z.ltb_spec (s_left s) n); [exact Logic.I|]. destruct (Z.ltb_spec (len (s_rest s)) n); [lia|].
    cbn. unfold adv, slack. cbn [s_rest s_left]. rewrite len_skipn by lia. split.
    + split; [lia|]. split; [lia|]. exists (firstn (Z.to_nat n) (s_rest s)). symmetry. apply firstn_skipn.
    + apply len_firstn. lia.
Qed.
Lemma rd1_safe s : good s -> safe 1 s byte (rd1 s).
Proof.
  unfold good, slack. intros (A & B). unfold rd1. destruct (Z.eqb_spec (s_left s) 0) as [|N]; [exact Logic.I|].
  destruct (s_rest s) as [|b r] eqn:E.
  - unfold len in B. cbn in B. lia.
  - cbn [safe]. split; [|unfold byte; apply Z.mod_pos_bound; lia]. unfold adv, slack. rewrite E, len_cons in *. cbn [s_rest s_left].
    split; [lia|]. split; [lia|now exists [b]].
Qed.
Lemma bind_safe {A B} k k' s (P : A -> Prop) (Q : B -> Prop) (x : res (A * stream)) (f : A * stream -> res (B * stream)) :
  safe k s P x -> (forall a s1, adv k s s1 -> P a -> safe k' s Q (f (a, s1))) -> safe k' s Q (bind x f).
Proof. destruct x as [[a s1]| |]; cbn; auto. intros [H1 H2] H. now apply H. Qed.
Lemma safe_adv {A} k k' k'' s s1 (P : A -> Prop) r :
  adv k s s1 -> safe k' s1 P r -> (k'' <= k + k')%Z -> safe k'' s P r.
Proof.
  destruct r as [[a s2]| |]; cbn; auto. intros A1 [A2 H] L. split; [|exact H].
  eapply adv_weak; [eapply adv_trans; eassumption|exact L].
Qed.
Lemma safe_weak {A} k k' s (P Q : A -> Prop) r : safe k s P r -> (k' <= k)%Z -> (forall a, P a -> Q a) -> safe k' s Q r.
Proof. destruct r as [[a s1]| |]; cbn; auto. intros [A1 H] L PQ. split; [eapply adv_weak; eassumption|auto]. Qed.

Lemma varint32_go_safe n : forall bitpos result s, good s -> (0 <= bitpos)%Z -> (64 <= bitpos + 7 * Z.of_nat (n - 1))%Z -> (1 <= n)%nat ->
  (0 <= result)%Z -> safe 1 s (fun z => 0 <= z)%Z (varint32_go n bitpos result s).
Proof.
  induction n as [|n IH]; intros bitpos result s G H0 Hb Hn Hr; [lia|]. cbn [varint32_go].
  eapply bind_safe; [apply rd1_safe, G|]. intros b s1 A Bb.
  match goal with |- safe _ _ _ (bind ?x _) => destruct x as [r'| |] eqn:E end; cbn [bind]; [|exact Logic.I|].
  - assert (0 <= r')%Z.
    { assert (0 < 2 ^ bitpos)%Z by (apply Z.pow_pos_nonneg; lia).
      pose proof (Z.mod_pos_bound b 16 ltac:(lia)). pose proof (Z.mod_pos_bound b 128 ltac:(lia)).
      repeat match type of E with context [if ?c then _ else _] => destruct c end; try discriminate; injection E as <-; nia. }
    destruct (cont b); [|now split].
    destruct n as [|n].
    + cbn [Z.of_nat Nat.sub] in Hb. destruct (Z.leb_spec 32 bitpos); [|lia].
      destruct (Z.leb_spec 64 bitpos); [|lia]. cbn [orb] in E. discriminate.
    + eapply safe_adv; [exact A|apply IH|lia]; [eapply adv_good; eassumption|lia|lia|lia|lia].
  - exfalso. repeat match type of E with context [if ?c then _ else _] => destruct c end; discriminate.
Qed.
Lemma dec_varint32_safe s : good s -> safe 1 s (fun z => 0 <= z)%Z (dec_varint32 s).
Proof.
  intros G. unfold dec_varint32. eapply bind_safe; [apply rd1_safe, G|]. intros b s1 A Bb.
  destruct (cont b); [|split; [exact A|unfold byte in Bb; lia]].
  pose proof (Z.mod_pos_bound b 128 ltac:(lia)).
  eapply safe_adv; [exact A|apply varint32_go_safe|lia]; [eapply adv_good; eassumption|lia|cbn; lia|lia|lia].
Qed.
Lemma varint_go_safe n : forall bitpos result s, good s -> (63 <= bitpos + 7 * Z.of_nat (n - 1))%Z -> (1 <= n)%nat ->
  safe 1 s (fun _ => True) (varint_go n bitpos result s).
Proof.
  induction n as [|n IH]; intros bitpos result s G Hb Hn; [lia|]. cbn [varint_go].
  eapply bind_safe; [apply rd1_safe, G|]. intros b s1 A Bb.
  destruct ((63 <=? bitpos)%Z && negb (Z.eqb (b / 2) 0))%bool eqn:C; [exact Logic.I|].
  destruct (cont b) eqn:Cb; [|now split].
  destruct n as [|n].
  - exfalso. cbn [Z.of_nat Nat.sub] in Hb. destruct (Z.leb_spec 63 bitpos); [|lia]. cbn [andb] in C.
    apply negb_false_iff, Z.eqb_eq in C. unfold cont in Cb. apply Z.leb_le in Cb. unfold byte in Bb.
    assert (64 <= b / 2)%Z by (apply Z.div_le_lower_bound; lia). lia.
  - eapply safe_adv; [exact A|apply IH|lia]; [eapply adv_good; eassumption|lia|lia].
Qed.
Lemma dec_varint_safe s : good s -> safe 1 s (fun _ => True) (dec_varint s).
Proof. intros G. apply varint_go_safe; [exact G|cbn; lia|lia]. Qed.
Lemma dec_tag_safe s : good s -> safe 1 s (fun _ => True) (dec_tag s).
Proof.
  intros G. unfold dec_tag. eapply bind_safe; [apply dec_varint32_safe, G|]. intros z s1 A _. now split.
Qed.
Lemma skip_varint_go_safe n : forall s, good s -> (s_left s < Z.of_nat n)%Z ->
  match skip_varint_go n s with Ok s' => adv 1 s s' | Fail => True | Fault => False end.
Proof.
  induction n as [|n IH]; intros s G L; [destruct G; lia|]. cbn [skip_varint_go].
  pose proof (rd_safe 1 s G ltac:(lia)) as R. destruct (rd 1 s) as [[bs s1]| |]; cbn [bind]; [|exact Logic.I|exact R].
  destruct R as [A _]. destruct (cont (hd 0%Z bs)); [|exact A].
  assert (G1 : good s1) by (eapply adv_good; eassumption).
  assert (s_left s1 < Z.of_nat n)%Z by (destruct A; lia).
  specialize (IH s1 G1 ltac:(assumption)). destruct (skip_varint_go n s1); [|exact Logic.I|exact IH].
  eapply adv_weak; [eapply adv_trans; eassumption|lia].
Qed.
Definition safe0 (k : Z) (s : stream) (r : res stream) : Prop :=
  match r with Ok s' => adv k s s' | Fail => True | Fault => False end.
Lemma skip_field_safe wt s : good s -> safe0 0 s (skip_field wt s).
Proof.
  intros G. unfold skip_field.
  destruct (Z.eqb wt wt_varint).
  - pose proof (skip_varint_go_safe (S (length (s_rest s))) s G) as H.
    unfold skip_varint. destruct (skip_varint_go _ s); cbn; auto.
    + eapply adv_weak; [apply H|lia]. destruct G as (A & B). unfold slack, len in B. lia.
    + apply H. destruct G as (A & B). unfold slack, len in B. lia.
  - destruct (Z.eqb wt wt_64).
    + pose proof (rd_safe 8 s G ltac:(lia)) as R. destruct (rd 8 s) as [[bs s1]| |]; cbn; auto.
      eapply adv_weak; [apply R|lia].
    + destruct (Z.eqb wt wt_string).
      * pose proof (dec_varint32_safe s G) as R. destruct (dec_varint32 s) as [[n s1]| |]; cbn [bind safe0]; auto.
        destruct R as [A Hn]. assert (G1 : good s1) by (eapply adv_good; eassumption).
        pose proof (rd_safe n s1 G1 Hn) as R. destruct (rd n s1) as [[bs s2]| |]; cbn; auto.
        eapply adv_weak; [eapply adv_trans; [exact A|apply R]|lia].
      * destruct (Z.eqb wt wt_32); [|exact Logic.I].
        pose proof (rd_safe 4 s G ltac:(lia)) as R. destruct (rd 4 s) as [[bs s1]| |]; cbn; auto.
        eapply adv_weak; [apply R|lia].
Qed.
Lemma raw_varint_go_safe n : forall s, good s ->
  safe 0 s (fun _ => True) (raw_varint_go n s).
Proof.
  induction n as [|n IH]; intros s G; [exact Logic.I|]. cbn [raw_varint_go].
  eapply bind_safe; [apply (rd_safe 1 s G); lia|]. intros bs s1 A L.
  destruct (cont (hd 0%Z bs)); [|split; [eapply adv_weak; [exact A|lia]|exact Logic.I]].
  eapply safe_adv; [exact A| |instantiate (1 := 0%Z); lia].
  eapply bind_safe; [apply IH; eapply adv_good; eassumption|]. intros rest s2 A2 F2. now split.
Qed.
Lemma raw_varint_len n : forall s bs s', good s -> raw_varint_go n s = Ok (bs, s') -> (len bs <= s_left s)%Z.
Proof.
  induction n as [|n IH]; intros s bs s' G; cbn [raw_varint_go]; [discriminate|].
  pose proof (rd_safe 1 s G ltac:(lia)) as R. destruct (rd 1 s) as [[b1 s1]| |]; cbn [bind]; try discriminate.
  destruct R as [A L]. assert (G1 : good s1) by (eapply adv_good; eassumption). destruct A as (A1 & A2 & A3).
  destruct (cont (hd 0%Z b1)).
  - destruct (raw_varint_go n s1) as [[r s2]| |] eqn:E; cbn [bind]; try discriminate. intros X. injection X as <- <-.
    apply IH in E; [|exact G1]. rewrite len_app. lia.
  - intros X. injection X as <- <-. lia.
Qed.
Lemma raw_value_safe wt s : good s -> safe 0 s (fun bs => (len bs <= s_left s)%Z) (raw_value wt s).
Proof.
  intros G. unfold raw_value. destruct (Z.eqb wt wt_varint).
  - pose proof (raw_varint_go_safe 10 s G) as H. destruct (raw_varint_go 10 s) as [[bs s1]| |] eqn:E; cbn; auto.
    destruct H as [A F]. split; [exact A|]. eapply raw_varint_len; eassumption.
  - assert (H : forall n, (0 <= n)%Z -> safe 0 s (fun bs => (len bs <= s_left s)%Z) (rd n s)).
    { intros n Hn. pose proof (rd_safe n s G Hn) as R. destruct (rd n s) as [[bs s1]| |]; cbn; auto.
      destruct R as [A L]. split; [eapply adv_weak; [exact A|lia]|]. destruct A as (A1 & _). lia. }
    destruct (Z.eqb wt wt_64); [apply H; lia|]. destruct (Z.eqb wt wt_32); [apply H; lia|exact Logic.I].
Qed.

(** A decoder of messages for streams with less than [n] bytes left. *)
Definition dec_safe (n : Z) (dec : desc -> list fval -> stream -> res (list fval * stream)) : Prop :=
  forall d m s, good s -> (s_left s < n)%Z -> safe 0 s (fun _ => True) (dec d m s).
Lemma callback_safe n dec ty v s : dec_safe n dec -> good s -> (s_left s < n)%Z ->
  safe 0 s (fun _ => True) (callback dec ty v s).
Proof.
  intros D G L. assert (G' := G). destruct G' as (G0 & _).
  assert (Z0 : adv 0 s s) by (unfold adv; split; [lia|split; [reflexivity|now exists []]]).
  destruct v; cbn [callback]; try (now split).
  - eapply bind_safe; [apply (rd_safe (s_left s) s G); lia|]. intros bs s1 A _. split; [eapply adv_weak; [exact A|lia]|exact Logic.I].
  - eapply bind_safe; [apply (rd_safe (s_left s) s G); lia|]. intros bs s1 A _. split; [eapply adv_weak; [exact A|lia]|exact Logic.I].
  - destruct ty; try (now split). eapply bind_safe; [apply (D _ _ s G L)|]. intros x s1 A _. now split.
Qed.
(** Reading a length delimited piece with a safe reader of the piece. *)
Lemma sub_safe {T} n s (f : stream -> res (T * stream)) :
  good s -> (s_left s <= n)%Z ->
  (forall sub, good sub -> (s_left sub < n)%Z -> safe 0 sub (fun _ => True) (f sub)) ->
  safe 1 s (fun _ : T => True) (do (sub, pl) <- substream s; do (m, sub') <- f sub; do s1 <- close_sub sub' pl; Ok (m, s1)).
Proof.
  intros G L H. unfold substream. pose proof (dec_varint32_safe s G) as R.
  destruct (dec_varint32 s) as [[k s1]| |]; cbn [bind]; [|exact Logic.I|exact R].
  destruct R as [A Hk]. assert (G1 : good s1) by (eapply adv_good; eassumption).
  destruct (Z.ltb_spec (s_left s1) k) as [Lk|Lk]; [exact Logic.I|]. cbn [bind].
  destruct A as (A1 & A2 & p & A3). destruct G1 as (B1 & B2).
  set (sub := Stream (s_rest s1) k).
  assert (Gs : good sub) by (unfold good, slack, sub in *; cbn [s_rest s_left]; split; lia).
  specialize (H sub Gs ltac:(cbn [sub s_left]; lia)).
  destruct (f sub) as [[m sub']| |]; cbn [bind]; [|exact Logic.I|exact H].
  destruct H as [C _]. assert (Gs' : good sub') by (eapply adv_good; eassumption).
  unfold close_sub. assert (C0 : (0 <= s_left sub')%Z) by apply Gs'.
  pose proof (rd_safe (s_left sub') sub' Gs' C0) as R2.
  destruct (rd (s_left sub') sub') as [[bs s2]| |]; cbn [bind]; [|exact Logic.I|exact R2].
  destruct R2 as [E _]. cbn [safe]. split; [|exact Logic.I].
  pose proof (adv_trans _ _ _ _ _ C E) as (X1 & X2 & q & X3).
  cbn [s_rest s_left sub] in *. unfold adv, slack in *. cbn [s_rest s_left sub] in *.
  split; [lia|]. split; [lia|]. exists (p ++ q). rewrite A3, X3. now rewrite app_assoc.
Qed.
Lemma dec_field_safe n dec ty v wt s : dec_safe n dec -> good s -> (s_left s < n)%Z ->
  safe 0 s (fun _ => True) (dec_field dec ty v wt s).
Proof.
  intros D G L. destruct ty as [| | | |d| |d]; cbn [dec_field].
  - destruct (Z.eqb wt wt_varint); cbn [negb]; [|exact Logic.I].
    eapply bind_safe; [apply dec_varint_safe, G|]. intros z s1 A _. split; [eapply adv_weak; [exact A|lia]|exact Logic.I].
  - destruct (Z.eqb wt wt_varint); cbn [negb]; [|exact Logic.I].
    eapply bind_safe; [apply dec_varint_safe, G|]. intros z s1 A _. split; [eapply adv_weak; [exact A|lia]|exact Logic.I].
  - destruct (Z.eqb wt wt_varint); cbn [negb]; [|exact Logic.I].
    eapply bind_safe; [apply dec_varint_safe, G|]. intros z s1 A _.
    destruct (2 ^ 32 <=? z)%Z; [exact Logic.I|]. split; [eapply adv_weak; [exact A|lia]|exact Logic.I].
  - destruct (Z.eqb wt wt_varint); cbn [negb]; [|exact Logic.I].
    eapply bind_safe; [apply dec_varint32_safe, G|]. intros z s1 A _. split; [eapply adv_weak; [exact A|lia]|exact Logic.I].
  - destruct (Z.eqb wt wt_string); cbn [negb]; [|exact Logic.I].
    destruct v as [|h m| | | |]; try exact Logic.I.
    pose proof (sub_safe n s (dec d m) G ltac:(lia) (fun sub => D d m sub)) as H.
    unfold bind in *. destruct (substream s) as [[sub pl]| |]; [|exact Logic.I|exact H].
    destruct (dec d m sub) as [[m' sub']| |]; [|exact Logic.I|exact H].
    destruct (close_sub sub' pl) as [s1| |]; [|exact Logic.I|exact H].
    cbn in *. split; [eapply adv_weak; [apply H|lia]|exact Logic.I].
  - destruct (Z.eqb wt wt_string).
    + eapply safe_weak; [apply (sub_safe n s (callback dec FCallStr v) G); [lia|intros; eapply callback_safe; eassumption]|lia|auto].
    + eapply bind_safe; [apply raw_value_safe, G|]. intros bs s1 A B. cbn beta in B.
      assert (Gb : good (Stream bs (len bs))).
      { unfold good, slack. cbn [s_rest s_left]. pose proof (len_nonneg bs). split; lia. }
      pose proof (callback_safe n dec FCallStr v _ D Gb ltac:(cbn [s_left]; lia)) as H.
      destruct (callback dec FCallStr v _) as [[v' s2]| |]; cbn in *; auto.
  - destruct (Z.eqb wt wt_string).
    + eapply safe_weak; [apply (sub_safe n s (callback dec (FCallMsg d) v) G); [lia|intros; eapply callback_safe; eassumption]|lia|auto].
    + eapply bind_safe; [apply raw_value_safe, G|]. intros bs s1 A B. cbn beta in B.
      assert (Gb : good (Stream bs (len bs))).
      { unfold good, slack. cbn [s_rest s_left]. pose proof (len_nonneg bs). split; lia. }
      pose proof (callback_safe n dec (FCallMsg d) v _ D Gb ltac:(cbn [s_left]; lia)) as H.
      destruct (callback dec (FCallMsg d) v _) as [[v' s2]| |]; cbn in *; auto.
Qed.
Lemma dec_inner_safe fuel : dec_safe (Z.of_nat fuel + 1) (dec_inner fuel).
Proof.
  induction fuel as [|f IH]; intros d m s G L; cbn [dec_inner].
  - assert (s_left s = 0)%Z by (destruct G; lia). rewrite (proj2 (Z.eqb_eq _ _)) by assumption.
    split; [|exact Logic.I]. unfold adv. split; [lia|]. split; [reflexivity|now exists []].
  - destruct (Z.eqb_spec (s_left s) 0) as [E|N].
    { split; [|exact Logic.I]. unfold adv. split; [lia|]. split; [reflexivity|now exists []]. }
    eapply bind_safe; [apply dec_tag_safe, G|]. intros [tag wt] s1 A _.
    destruct (Z.eqb tag 0); [exact Logic.I|].
    assert (G1 : good s1) by (eapply adv_good; eassumption).
    assert (L1 : (s_left s1 < Z.of_nat f + 1)%Z) by (destruct A; lia).
    destruct (find_field tag d m) as [[[i ty] v]|].
    + eapply safe_adv; [exact A| |instantiate (1 := 0%Z); lia].
      eapply bind_safe; [apply (dec_field_safe (Z.of_nat f + 1) _ ty v wt s1 IH G1 L1)|]. intros v' s2 A2 _.
      eapply safe_adv; [exact A2|apply IH|lia]; [eapply adv_good; eassumption|destruct A2; lia].
    + eapply safe_adv; [exact A| |instantiate (1 := 0%Z); lia].
      pose proof (skip_field_safe wt s1 G1) as H. destruct (skip_field wt s1) as [s2| |]; cbn [bind]; [|exact Logic.I|exact H].
      cbn in H. eapply safe_adv; [exact H|apply IH|lia]; [eapply adv_good; eassumption|destruct H; lia].
Qed.
Lemma pb_decode_safe d t bs : pb_decode d t bs <> Fault.
Proof.
  unfold pb_decode.
  pose proof (dec_inner_safe (S (length bs)) d (map defaults t) (Stream bs (len bs))) as H.
  destruct (dec_inner _ _ _ _) as [[m s]| |]; cbn; try discriminate. intros _. apply H.
  - unfold good, slack. cbn [s_rest s_left]. pose proof (len_nonneg bs). split; lia.
  - cbn [s_left]. unfold len. lia.
Qed.
