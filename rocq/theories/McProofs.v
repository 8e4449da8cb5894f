(** Proofs about multicast addresses. *)
From Verif Require Import Base Sample McModel McSpec.
Open Scope Z_scope.

(** ** Bits *)
Lemma small_bit n x i : 0 <= n -> 0 <= x < 2^n -> n <= i -> Z.testbit x i = false.
Proof. intros N B I. rewrite <- (Z.mod_small x (2^n)) by exact B. apply Z.mod_pow2_bits_high. lia. Qed.
Lemma land_low n x : 0 <= n -> 0 <= x < 2^n -> Z.land x (Z.ones n) = x.
Proof. intros N B. rewrite Z.land_ones by exact N. apply Z.mod_small, B. Qed.
Lemma lor_range n a b : 0 <= n -> 0 <= a < 2^n -> 0 <= b < 2^n -> 0 <= Z.lor a b < 2^n.
Proof.
  intros N A B. replace (Z.lor a b) with (Z.land (Z.lor a b) (Z.ones n)).
  - rewrite Z.land_ones by exact N. apply Z.mod_pos_bound. lia.
  - rewrite Z.land_lor_distr_l, !land_low by assumption. reflexivity.
Qed.
Lemma land_range n a b : 0 <= n -> 0 <= a < 2^n -> 0 <= b -> 0 <= Z.land a b < 2^n.
Proof.
  intros N A B. replace (Z.land a b) with (Z.land (Z.land a b) (Z.ones n)).
  - rewrite Z.land_ones by exact N. apply Z.mod_pos_bound. lia.
  - rewrite <- Z.land_assoc, (Z.land_comm b), Z.land_assoc, land_low by assumption. reflexivity.
Qed.
Lemma lor_shift a m : 0 <= m < 256 -> Z.lor (Z.shiftl a 8) m = a * 256 + m.
Proof.
  intros M. assert (L : Z.land (Z.shiftl a 8) m = 0).
  { apply Z.bits_inj'. intros i I. rewrite Z.land_spec, Z.bits_0. destruct (Z.ltb_spec i 8).
    - rewrite Z.shiftl_spec_low by lia. reflexivity.
    - rewrite (small_bit 8 m i) by lia. apply andb_false_r. }
  rewrite <- (Z.lxor_lor _ _ L), <- (Z.add_nocarry_lxor _ _ L), Z.shiftl_mul_pow2 by lia. reflexivity.
Qed.
Lemma lxor_mod n a c : 0 <= n -> 0 <= c < 2^n -> (Z.lxor a c) mod 2^n = Z.lxor (a mod 2^n) c.
Proof.
  intros N C. apply Z.bits_inj'. intros i I. rewrite Z.lxor_spec. destruct (Z.ltb_spec i n).
  - rewrite !Z.mod_pow2_bits_low, Z.lxor_spec by lia. reflexivity.
  - rewrite !Z.mod_pow2_bits_high, (small_bit n c) by lia. reflexivity.
Qed.

(** ** The hash *)
Lemma mod_mod_pow a k n : 0 <= n <= k -> (a mod 2^k) mod 2^n = a mod 2^n.
Proof.
  intros N. apply Z.bits_inj'. intros i I. destruct (Z.ltb_spec i n).
  - rewrite !Z.mod_pow2_bits_low by lia. reflexivity.
  - rewrite !Z.mod_pow2_bits_high by lia. reflexivity.
Qed.
Lemma fnv_low k s : 32 <= k -> Forall octet s -> fnv (2^k) s mod 2^32 = fnv32 s.
Proof.
  intros K B. unfold fnv, fnv32. assert (H : (2166136261 mod 2^32 = 2166136261)) by reflexivity.
  revert H. generalize 2166136261 at 1 3. generalize 2166136261. intros r r' E. revert r r' E.
  induction B as [|c s C B IH]; intros r r' E; cbn [fold_left]; [exact E|]. apply IH.
  unfold fnv_step. rewrite lxor_mod by (unfold octet in C; lia). rewrite mod_mod_pow by lia.
  rewrite <- (Z.mul_mod_idemp_r 16777619 r') by lia. rewrite E. reflexivity.
Qed.
Lemma fnv32_range s : Forall octet s -> 0 <= fnv32 s < 2^32.
Proof. intros B. rewrite <- (fnv_low 32 s ltac:(lia) B). apply Z.mod_pos_bound. lia. Qed.

(** ** Decimal numbers *)
Lemma octet_cases (P : Z -> bool) : forallb (fun n => P (Z.of_nat n)) (seq 0 256) = true -> forall x, octet x -> P x = true.
Proof.
  intros H x X. rewrite forallb_forall in H. specialize (H (Z.to_nat x)). rewrite Z2Nat.id in H by (unfold octet in X; lia).
  apply H. apply in_seq. unfold octet in X. lia.
Qed.
Lemma to_string_written x : octet x -> to_string x = written x.
Proof. intros X. apply eqb_true. revert x X. apply (octet_cases (fun x => eqb (to_string x) (written x))). vm_compute. reflexivity. Qed.
Lemma atoi_written x : octet x -> atoi (written x) = Some x.
Proof. intros X. apply eqb_true. revert x X. apply (octet_cases (fun x => eqb (atoi (written x)) (Some x))). vm_compute. reflexivity. Qed.
Lemma written_nodot x : octet x -> existsb (Z.eqb 46) (written x) = false.
Proof. intros X. apply negb_true_iff. revert x X. apply (octet_cases (fun x => negb (existsb (Z.eqb 46) (written x)))). vm_compute. reflexivity. Qed.
Lemma written_nonempty x : written x <> [].
Proof. unfold written. destruct (x <? 10), (x <? 100); discriminate. Qed.
Lemma tokens_word u : forall cur rest, existsb (Z.eqb 46) u = false -> tokens cur (u ++ 46 :: rest) = (cur ++ u) :: tokens [] rest.
Proof.
  induction u as [|c u IH]; intros cur rest N; cbn [app tokens].
  - rewrite Z.eqb_refl, app_nil_r. reflexivity.
  - cbn [existsb] in N. apply orb_false_iff in N. destruct N as [N1 N2]. rewrite (Z.eqb_sym c 46), N1, IH by exact N2. rewrite <- app_assoc. reflexivity.
Qed.
Lemma tokens_last u : forall cur, existsb (Z.eqb 46) u = false -> cur ++ u <> [] -> tokens cur u = [cur ++ u].
Proof.
  induction u as [|c u IH]; intros cur N E; cbn [tokens].
  - rewrite app_nil_r in *. destruct cur; [contradiction|reflexivity].
  - cbn [existsb] in N. apply orb_false_iff in N. destruct N as [N1 N2]. rewrite (Z.eqb_sym c 46), N1. rewrite IH; [rewrite <- app_assoc; reflexivity|exact N2|rewrite <- app_assoc; exact E].
Qed.
Lemma tokens_dotted a b c d : octet a -> octet b -> octet c -> octet d -> tokens [] (dotted a b c d) = [written a; written b; written c; written d].
Proof.
  intros A B C D. unfold dotted. change (str ".") with [46]. cbn [app].
  rewrite !tokens_word by (apply written_nodot; assumption). rewrite tokens_last; [reflexivity|apply written_nodot; assumption|apply written_nonempty].
Qed.
Lemma octets_dotted a b c d : octet a -> octet b -> octet c -> octet d -> octets (firstn 4 (tokens [] (dotted a b c d))) = Some [a; b; c; d].
Proof.
  intros A B C D. rewrite tokens_dotted by assumption. cbn [firstn octets]. rewrite !atoi_written by assumption. unfold octet in *. rewrite !Z.mod_small by lia. reflexivity.
Qed.
Lemma parse_step ip m : 0 <= ip < 2^24 -> octet m -> Z.lor (Z.shiftl ip 8 mod 2^32) m = ip * 256 + m.
Proof. intros I M. rewrite Z.mod_small by (rewrite Z.shiftl_mul_pow2; lia). apply lor_shift, M. Qed.
Lemma parse_dotted a b c d : octet a -> octet b -> octet c -> octet d -> parse_ipv4 (dotted a b c d) = Some (ipv4 a b c d).
Proof.
  intros A B C D. unfold parse_ipv4. rewrite octets_dotted by assumption. cbn [fold_left]. f_equal. unfold octet in *.
  rewrite (parse_step 0 a) by (unfold octet; lia). rewrite (parse_step _ b) by (unfold octet; lia). rewrite (parse_step _ c) by (unfold octet; lia). rewrite (parse_step _ d) by (unfold octet; lia). unfold ipv4. lia.
Qed.
Lemma octets_range l : forall r, octets l = Some r -> Forall octet r /\ length r = length l.
Proof.
  induction l as [|t l IH]; intros r E; cbn in E; [injection E as <-; auto|]. destruct (atoi t); [|discriminate]. destruct (octets l) as [r'|]; [|discriminate].
  injection E as <-. destruct (IH r' eq_refl) as [A B]. split; [constructor; [apply Z.mod_pos_bound; lia|exact A]|cbn; congruence].
Qed.
Lemma parse_range s x : parse_ipv4 s = Some x -> 0 <= x < 2^32.
Proof.
  unfold parse_ipv4. destruct (octets (firstn 4 (tokens [] s))) as [l|] eqn:O; [|discriminate]. intros E. injection E as <-.
  destruct (octets_range _ _ O) as [F _]. clear O. enough (G : forall ip, 0 <= ip < 2^32 -> 0 <= fold_left (fun ip m => Z.lor (Z.shiftl ip 8 mod 2^32) m) l ip < 2^32) by (apply G; lia).
  induction F as [|m l M F IH]; intros ip I; cbn [fold_left]; [exact I|]. apply IH.
  apply lor_range; [lia|apply Z.mod_pos_bound; lia|unfold octet in M; lia].
Qed.
Lemma ipv4_range a b c d : octet a -> octet b -> octet c -> octet d -> 0 <= ipv4 a b c d < 2^32.
Proof. unfold octet, ipv4. lia. Qed.
Lemma serialize_denotes x : 0 <= x < 2^32 -> denotes (serialize_ipv4 x) x.
Proof.
  intros X. exists (x / 2^24), (x / 2^16 mod 2^8), (x / 2^8 mod 2^8), (x mod 2^8).
  assert (B1 : octet (x / 2^24)) by (unfold octet; split; [apply Z.div_pos; lia|apply Z.div_lt_upper_bound; lia]).
  assert (B2 : octet (x / 2^16 mod 2^8)) by (apply Z.mod_pos_bound; lia).
  assert (B3 : octet (x / 2^8 mod 2^8)) by (apply Z.mod_pos_bound; lia).
  assert (B4 : octet (x mod 2^8)) by (apply Z.mod_pos_bound; lia).
  repeat (split; [assumption|]). split.
  - unfold serialize_ipv4, dotted. change 0x00ffffff with (Z.ones 24). change 0x0000ffff with (Z.ones 16). change 0x000000ff with (Z.ones 8).
    rewrite !Z.land_ones, !Z.shiftr_div_pow2 by lia.
    replace ((x mod 2^24) / 2^16) with (x / 2^16 mod 2^8) by (change (2^24) with (2^16 * 2^8); rewrite Z.rem_mul_r by lia; rewrite Z.mul_comm, Z.div_add by lia; rewrite (Z.div_small (x mod 2^16)) by (apply Z.mod_pos_bound; lia); reflexivity).
    replace ((x mod 2^16) / 2^8) with (x / 2^8 mod 2^8) by (change (2^16) with (2^8 * 2^8); rewrite Z.rem_mul_r by lia; rewrite Z.mul_comm, Z.div_add by lia; rewrite (Z.div_small (x mod 2^8)) by (apply Z.mod_pos_bound; lia); reflexivity).
    rewrite !to_string_written by assumption. reflexivity.
  - unfold ipv4. pose proof (Z.div_mod x (2^8) ltac:(lia)). pose proof (Z.div_mod (x / 2^8) (2^8) ltac:(lia)). pose proof (Z.div_mod (x / 2^8 / 2^8) (2^8) ltac:(lia)).
    rewrite !Z.div_div in * by lia. change (2^8 * 2^8) with (2^16) in *. change (2^16 * 2^8) with (2^24) in *. change (2^8 * (2^8 * 2^8)) with (2^24) in *. lia.
Qed.
Lemma denotes_parse s x : denotes s x -> parse_ipv4 s = Some x /\ 0 <= x < 2^32.
Proof. intros (a & b & c & d & A & B & C & D & -> & ->). split; [apply parse_dotted|apply ipv4_range]; assumption. Qed.

(** ** Version 2 *)
Lemma inverted_bit m i : 0 <= i < 32 -> 0 <= m < 2^32 -> Z.testbit (inverted m) i = negb (Z.testbit m i).
Proof.
  intros I M. unfold inverted. replace (2^32 - 1 - m) with (Z.lnot m mod 2^32).
  - rewrite Z.mod_pow2_bits_low, Z.lnot_spec by lia. reflexivity.
  - unfold Z.lnot. rewrite <- (Z.mod_add _ 1) by lia. rewrite Z.mod_small; lia.
Qed.
Lemma combine_bit b h m i : 0 <= i < 32 -> 0 <= m < 2^32 -> Z.testbit (combine b h m) i = if Z.testbit m i then Z.testbit b i else Z.testbit h i.
Proof.
  intros I M. unfold combine. rewrite Z.lor_spec, !Z.land_spec, inverted_bit by assumption. destruct (Z.testbit m i), (Z.testbit b i), (Z.testbit h i); reflexivity.
Qed.
Lemma increase_bit b m i : 0 <= i < 32 -> 0 <= m < 2^32 -> Z.testbit (increase b m) i = if Z.testbit m i then Z.testbit b i else Z.testbit (b + 1) i.
Proof.
  intros I M. unfold increase. rewrite Z.lor_spec, !Z.land_spec, inverted_bit, Z.mod_pow2_bits_low by (assumption || lia).
  destruct (Z.testbit m i), (Z.testbit b i), (Z.testbit (b + 1) i); reflexivity.
Qed.
Lemma pick_range h b m : 0 <= h < 2^32 -> 0 <= b < 2^32 -> 0 <= m < 2^32 -> 0 <= pick h b m < 2^32.
Proof.
  intros H B M. unfold pick, combine, increase. destruct (_ =? _); apply lor_range; try lia; apply land_range; try lia; try (unfold inverted; lia); try (apply Z.mod_pos_bound; lia).
Qed.
Lemma pick_network h b m : 0 <= m < 2^32 -> same_network m (pick h b m) b.
Proof. intros M i I T. unfold pick. destruct (_ =? _); [rewrite increase_bit|rewrite combine_bit]; try assumption; rewrite T; reflexivity. Qed.
Lemma pick_host h b m : 0 <= m < 2^32 ->
  (host_bits_of m (pick h b m) h /\ pick h b m <> b) \/ (host_bits_of m (pick h b m) (b + 1) /\ host_bits_of m h b).
Proof.
  intros M. unfold pick. destruct (Z.eqb_spec (combine b h m) b) as [E|N].
  - right. split.
    + intros i I T. rewrite increase_bit by assumption. rewrite T. reflexivity.
    + intros i I T. rewrite <- E at 1. rewrite combine_bit by assumption. rewrite T. reflexivity.
  - left. split; [|exact N]. intros i I T. rewrite combine_bit by assumption. rewrite T. reflexivity.
Qed.
Lemma pick_not_base h b m : 0 <= m < 2^32 -> Z.testbit m 0 = false -> pick h b m <> b.
Proof.
  intros M T. unfold pick. destruct (Z.eqb_spec (combine b h m) b) as [E|N]; [|exact N]. intros F.
  pose proof (increase_bit b m 0 ltac:(lia) M) as I. rewrite F, T in I. rewrite !Z.bit0_odd, Z.odd_add in I. destruct (Z.odd b); discriminate.
Qed.
Definition chosen (topic base mask : text) (s : text) : Prop :=
  exists b m x, denotes base b /\ denotes mask m /\ denotes s x /\ x = pick (fnv32 topic) b m.
Lemma v2_denotes k topic base mask b m : 32 <= k -> Forall octet topic -> denotes base b -> denotes mask m ->
  exists s, v2_topic2mcast (2^k) topic base mask = Some s /\ denotes s (pick (fnv32 topic) b m) /\ 0 <= m < 2^32.
Proof.
  intros K T B M. destruct (denotes_parse _ _ B) as [PB RB]. destruct (denotes_parse _ _ M) as [PM RM].
  unfold v2_topic2mcast, v2_topic2mcast_hash. rewrite PB, PM, fnv_low by assumption.
  eexists. split; [reflexivity|]. split; [|exact RM]. apply serialize_denotes, pick_range; try assumption. apply fnv32_range, T.
Qed.
Lemma v2_lemma k topic base mask b m : 32 <= k -> Forall octet topic -> denotes base b -> denotes mask m ->
  exists s x, v2_topic2mcast (2^k) topic base mask = Some s /\ denotes s x /\ same_network m x b /\
    (host_bits_of m x (fnv32 topic) \/ (host_bits_of m x (b + 1) /\ host_bits_of m (fnv32 topic) b)) /\
    (Z.testbit m 0 = false -> x <> b /\ s <> base).
Proof.
  intros K T B M. destruct (v2_denotes k topic base mask b m K T B M) as (s & E & D & R). exists s, (pick (fnv32 topic) b m).
  split; [exact E|]. split; [exact D|]. split; [apply pick_network, R|]. split.
  - destruct (pick_host (fnv32 topic) b m R) as [[H _]|H]; auto.
  - intros Z0. pose proof (pick_not_base (fnv32 topic) b m R Z0) as N. split; [exact N|]. intros ->.
    apply denotes_parse in D. apply denotes_parse in B. destruct D as [D _], B as [B _]. congruence.
Qed.
Lemma v2_any k topic base mask s : 32 <= k -> Forall octet topic -> v2_topic2mcast (2^k) topic base mask = Some s -> exists x, denotes s x.
Proof.
  intros K T. unfold v2_topic2mcast, v2_topic2mcast_hash. destruct (parse_ipv4 mask) as [m|] eqn:M; [|discriminate]. destruct (parse_ipv4 base) as [b|] eqn:B; [|discriminate].
  intros E. injection E as <-. eexists. apply serialize_denotes. apply pick_range; [apply Z.mod_pos_bound; lia| |]; eapply parse_range; eassumption.
Qed.
Lemma high_bits x y : 0 <= x < 2^32 -> 0 <= y < 2^32 -> (forall i, 28 <= i < 32 -> Z.testbit x i = Z.testbit y i) -> x / 2^28 = y / 2^28.
Proof.
  intros X Y H. rewrite <- !Z.shiftr_div_pow2 by lia. apply Z.bits_inj'. intros i I. rewrite !Z.shiftr_spec by lia.
  destruct (Z.ltb_spec i 4); [apply H; lia|]. rewrite !(small_bit 32) by lia. reflexivity.
Qed.
Lemma v2_multicast k topic base mask b m : 32 <= k -> Forall octet topic -> denotes base b -> denotes mask m -> multicast b ->
  ipv4 240 0 0 0 <= m -> exists s x, v2_topic2mcast (2^k) topic base mask = Some s /\ denotes s x /\ multicast x.
Proof.
  intros K T B M U W. destruct (v2_lemma k topic base mask b m K T B M) as (s & x & E & D & N & _). exists s, x. split; [exact E|]. split; [exact D|].
  apply denotes_parse in D. apply denotes_parse in B. apply denotes_parse in M. destruct D as [_ D], B as [_ B], M as [_ M].
  assert (H : x / 2^28 = b / 2^28).
  { apply high_bits; try assumption. intros i I. apply N; [lia|].
    assert (Q : m / 2^28 = 15) by (unfold ipv4 in W; apply Z.le_antisymm; [assert (m / 2^28 < 16) by (apply Z.div_lt_upper_bound; lia); lia|apply Z.div_le_lower_bound; lia]).
    replace i with ((i - 28) + 28) by lia. rewrite <- Z.shiftr_spec, Z.shiftr_div_pow2 by lia. change (2^28) with (2^28) in Q. rewrite Q.
    assert (i - 28 = 0 \/ i - 28 = 1 \/ i - 28 = 2 \/ i - 28 = 3) as [->|[->|[->| ->]]] by lia; reflexivity. }
  assert (b / 2^28 = 14). { unfold multicast, ipv4 in U. apply Z.le_antisymm; [assert (b / 2^28 < 15) by (apply Z.div_lt_upper_bound; lia); lia|apply Z.div_le_lower_bound; lia]. }
  rewrite H0 in H. pose proof (Z.div_mod x (2^28) ltac:(lia)). pose proof (Z.mod_pos_bound x (2^28) ltac:(lia)). unfold multicast, ipv4. lia.
Qed.
(** A mask without host bits leaves only the registration address. *)
Lemma full_mask_lemma k topic base b : 32 <= k -> Forall octet topic -> denotes base b -> exists s, v2_topic2mcast (2^k) topic base (dotted 255 255 255 255) = Some s /\ denotes s b.
Proof.
  intros K T B. destruct (v2_lemma k topic base (dotted 255 255 255 255) b (ipv4 255 255 255 255) K T B) as (s & x & E & D & N & _).
  - exists 255, 255, 255, 255. unfold octet. repeat split; lia.
  - exists s. split; [exact E|]. replace b with x; [exact D|]. apply denotes_parse in D. apply denotes_parse in B. destruct D as [_ D], B as [_ B].
    apply Z.bits_inj'. intros i I. destruct (Z.ltb_spec i 32).
    + apply N; [lia|]. change (ipv4 255 255 255 255) with (Z.ones 32). apply Z.ones_spec_low. lia.
    + rewrite !(small_bit 32) by lia. reflexivity.
Qed.

(** ** Version 1 *)
Lemma land_octet h m : 0 <= h -> octet m -> octet (Z.land h m).
Proof. unfold octet. intros H M. rewrite Z.land_comm. change 256 with (2^8). apply land_range; lia. Qed.
Lemma masks_range l : Forall octet l -> let '(m1, m2, m3) := masks l in octet m1 /\ octet m2 /\ octet m3.
Proof.
  intros F. assert (O : octet 255) by (unfold octet; lia). unfold masks. destruct F as [|? ? F1 F]; [auto|]. destruct F as [|? ? F2 F]; [auto|]. destruct F as [|? ? F3 F]; [auto|].
  destruct F as [|? ? F4 F]; auto.
Qed.
Lemma fnv_nonneg k s : 0 <= k -> Forall octet s -> 0 <= fnv (2^k) s.
Proof.
  intros K F. unfold fnv. assert (H : 0 <= 2166136261) by lia. revert H. generalize 2166136261. induction F as [|c s C F IH]; intros r R; cbn [fold_left]; [exact R|].
  apply IH. unfold fnv_step. apply Z.lxor_nonneg. unfold octet in C. pose proof (Z.mod_pos_bound (16777619 * r) (2^k) ltac:(lia)). lia.
Qed.
Lemma fnv_shift k s j m : 32 <= k -> 0 <= j <= 16 -> octet m -> Forall octet s -> Z.land (Z.shiftr (fnv (2^k) s) j) m = Z.land (Z.shiftr (fnv32 s) j) m.
Proof.
  intros K J M F. rewrite <- (fnv_low k s K F). apply Z.bits_inj'. intros i I. rewrite !Z.land_spec, !Z.shiftr_spec by lia. destruct (Z.ltb_spec i 8).
  - rewrite Z.mod_pow2_bits_low by lia. reflexivity.
  - rewrite (small_bit 8 m) by (unfold octet in M; lia). rewrite !andb_false_r. reflexivity.
Qed.
Lemma firstn_dotted a b c d : 100 <= a < 256 -> firstn 3 (dotted a b c d) = written a.
Proof. intros A. unfold dotted, written. destruct (Z.ltb_spec a 10); [lia|]. destruct (Z.ltb_spec a 100); [lia|]. reflexivity. Qed.
Lemma v1_lemma k topic a b c d m0 m1 m2 m3 : 32 <= k -> Forall octet topic -> 100 <= a < 256 -> octet m0 -> octet m1 -> octet m2 -> octet m3 ->
  exists x3, v1_topic2mcast (2^k) topic (dotted a b c d) (dotted m0 m1 m2 m3) =
    Some (dotted a (Z.land (fnv32 topic / 2^16) m1) (Z.land (fnv32 topic / 2^8) m2) x3) /\
    2 <= x3 < 256 /\ (x3 = Z.land (fnv32 topic) m3 \/ x3 = 2 /\ Z.land (fnv32 topic) m3 < 2).
Proof.
  intros K T A M0 M1 M2 M3. unfold v1_topic2mcast, v1_topic2mcast_hash. rewrite octets_dotted by assumption. cbn [masks]. rewrite firstn_dotted by exact A.
  pose proof (fnv32_range topic T) as R. rewrite !fnv_shift by (assumption || lia).
  pose proof (fnv_shift k topic 0 m3 K ltac:(lia) M3 T) as S0. rewrite !Z.shiftr_0_r in S0. rewrite S0, !Z.shiftr_div_pow2 by lia.
  assert (D1 : 0 <= fnv32 topic / 2^16) by (apply Z.div_pos; lia). assert (D2 : 0 <= fnv32 topic / 2^8) by (apply Z.div_pos; lia).
  pose proof (land_octet (fnv32 topic) m3 ltac:(lia) M3) as L. unfold octet in L.
  set (x3 := if Z.land (fnv32 topic) m3 <? 2 then 2 else Z.land (fnv32 topic) m3).
  assert (X : 2 <= x3 < 256 /\ (x3 = Z.land (fnv32 topic) m3 \/ x3 = 2 /\ Z.land (fnv32 topic) m3 < 2)).
  { unfold x3. destruct (Z.ltb_spec (Z.land (fnv32 topic) m3) 2); lia. }
  exists x3. split; [|exact X]. rewrite !to_string_written; [reflexivity|unfold octet; lia|apply land_octet; assumption|apply land_octet; assumption].
Qed.
(** The second to fourth octet of the group are ignored. *)
Lemma v1_ignores k topic mask a b c d : 32 <= k -> 100 <= a < 256 ->
  v1_topic2mcast (2^k) topic (dotted a b c d) mask = v1_topic2mcast (2^k) topic (dotted a 0 0 0) mask.
Proof. intros K A. unfold v1_topic2mcast, v1_topic2mcast_hash. rewrite !firstn_dotted by exact A. reflexivity. Qed.
Lemma written_inj x y : octet x -> octet y -> written x = written y -> x = y.
Proof. intros X Y E. assert (Some x = Some y) by (rewrite <- (atoi_written x X), <- (atoi_written y Y), E; reflexivity). congruence. Qed.
Lemma dotted_inj a b c d a' b' c' d' : octet a -> octet b -> octet c -> octet d -> octet a' -> octet b' -> octet c' -> octet d' ->
  dotted a b c d = dotted a' b' c' d' -> a = a' /\ b = b' /\ c = c' /\ d = d'.
Proof.
  intros A B C D A' B' C' D' E. assert (X : tokens [] (dotted a b c d) = tokens [] (dotted a' b' c' d')) by (rewrite E; reflexivity).
  rewrite !tokens_dotted in X by assumption. injection X as X1 X2 X3 X4. repeat split; apply written_inj; assumption.
Qed.
Lemma v1_outside k topic : 32 <= k -> Forall octet topic -> exists x, v1_topic2mcast (2^k) topic (dotted 239 5 0 1) (dotted 0 0 0 15) = Some (dotted 239 0 0 x) /\ 2 <= x < 16.
Proof.
  intros K T. destruct (v1_lemma k topic 239 5 0 1 0 0 0 15 K T) as (x & E & X & Y); try (unfold octet; lia).
  rewrite !Z.land_0_r in E. exists x. split; [exact E|]. destruct Y as [Y|Y]; [|lia]. pose proof (land_range 4 15 (fnv32 topic) ltac:(lia) ltac:(lia) ltac:(pose proof (fnv32_range topic T); lia)) as L.
  rewrite Z.land_comm in L. lia.
Qed.
Lemma v1_not_base k topic a b c d m0 m1 m2 m3 : 32 <= k -> Forall octet topic -> 100 <= a < 256 -> octet b -> octet c -> 0 <= d < 2 -> octet m0 -> octet m1 -> octet m2 -> octet m3 ->
  v1_topic2mcast (2^k) topic (dotted a b c d) (dotted m0 m1 m2 m3) <> Some (dotted a b c d).
Proof.
  intros K T A B C D M0 M1 M2 M3 E. destruct (v1_lemma k topic a b c d m0 m1 m2 m3 K T A M0 M1 M2 M3) as (x & E' & X & _). rewrite E' in E. injection E as E.
  assert (R : 0 <= fnv32 topic) by (apply fnv32_range, T).
  apply dotted_inj in E; try (unfold octet in *; lia); try (apply land_octet; [apply Z.div_pos; lia|assumption]).
Qed.

Lemma local_lemma w c topic : mc_network c = false ->
  topic_address w c topic = Some (str "127.255.255.255") /\ registration_address c = str "127.255.255.255".
Proof. intros H. unfold topic_address, registration_address. rewrite H. split; reflexivity. Qed.
Lemma network_lemma w c topic : mc_network c = true ->
  topic_address w c topic = (if mc_v1 c then v1_topic2mcast w topic (mc_group c) (mc_mask c) else v2_topic2mcast w topic (mc_group c) (mc_mask c)) /\
  registration_address c = mc_group c.
Proof. intros H. unfold topic_address, registration_address. rewrite H. split; reflexivity. Qed.
