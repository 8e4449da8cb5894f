(** Accepted addresses and what the multicast code reads in them. *)
From Verif Require Import Base Sample McModel McSpec McProofs CfgModel CfgSpec CfgProofs.
Open Scope Z_scope.

Lemma written_head : forall x, octet x -> dec_head (written x) = true.
Proof. apply octet_cases. vm_compute. reflexivity. Qed.
Lemma written_tail : forall x, octet x -> dec_tail (written x) = true.
Proof. apply octet_cases. vm_compute. reflexivity. Qed.
Lemma written_number : forall x, octet x -> number 10 (written x) = x.
Proof.
  intros x H. apply Z.eqb_eq. revert x H. apply (octet_cases (fun x => number 10 (written x) =? x)). vm_compute. reflexivity.
Qed.
Lemma written_digits : forall x, octet x -> Forall (digit_of 10) (written x).
Proof. intros x H. apply head_range, written_head, H. Qed.
Lemma nodot : forall x, octet x -> ~ In 46 (written x).
Proof.
  intros x H I. pose proof (written_digits x H) as F. rewrite Forall_forall in F. specialize (F _ I). unfold digit_of in F. lia.
Qed.
Lemma dotted_parts : forall a b c d, octet a -> octet b -> octet c -> octet d -> dot_parts (dotted a b c d) = [written a; written b; written c; written d].
Proof.
  intros a b c d A B C D. unfold dotted. change (str ".") with [46]. cbn [app].
  rewrite !parts_word, parts_last by (apply nodot; assumption). reflexivity.
Qed.
Lemma dotted_quad : forall a b c d, octet a -> octet b -> octet c -> octet d -> quad 10 (dotted a b c d) [a; b; c; d].
Proof.
  intros a b c d A B C D. exists (written a), (written b), (written c), (written d). split; [reflexivity|]. split.
  - cbn [map]. rewrite !written_number by assumption. reflexivity.
  - repeat (apply Forall_cons; [split; [apply written_nonempty|apply written_digits; assumption]|]). apply Forall_nil.
Qed.

(** A decimal part without leading zero that is on a list of the forbidden is the number itself. *)
Lemma w_ones : forall x, octet x -> ones (written x) = (x =? 255).
Proof. intros x H. apply eqb_prop. revert x H. apply octet_cases. vm_compute. reflexivity. Qed.
Lemma w_zeros : forall x, octet x -> zeros (written x) = (x =? 0).
Proof. intros x H. apply eqb_prop. revert x H. apply octet_cases. vm_compute. reflexivity. Qed.
Lemma w_127 : forall x, octet x -> one_of ["127"; "7f"; "7F"]%string (written x) = (x =? 127).
Proof. intros x H. apply eqb_prop. revert x H. apply octet_cases. vm_compute. reflexivity. Qed.
Lemma w_1 : forall x, octet x -> one_of ["1"; "01"; "001"]%string (written x) = (x =? 1).
Proof. intros x H. apply eqb_prop. revert x H. apply octet_cases. vm_compute. reflexivity. Qed.
Lemma decimal_accepted : forall a b c d, octet a -> octet b -> octet c -> octet d ->
  (valid_ip (dotted a b c d) = true <-> ~ In [a; b; c; d] barred).
Proof.
  intros a b c d A B C D. split.
  - intros V. exact (ip_barred _ 10 _ V (or_introl eq_refl) (dotted_quad a b c d A B C D)).
  - intros N. unfold valid_ip, dec_match, forbidden_ip. rewrite (dotted_parts a b c d A B C D).
    rewrite !written_head, written_tail by assumption. cbn [andb orb].
    rewrite !w_ones, !w_zeros, w_127, w_1 by assumption. apply negb_true_iff.
    destruct ((a =? 255) && (b =? 255) && (c =? 255) && (d =? 255))%bool eqn:E1; [exfalso; apply N|].
    { assert (a = 255 /\ b = 255 /\ c = 255 /\ d = 255) as (-> & -> & -> & ->) by lia. cbn. tauto. }
    destruct ((a =? 127) && (b =? 0) && (c =? 0) && (d =? 1))%bool eqn:E2; [exfalso; apply N|].
    { assert (a = 127 /\ b = 0 /\ c = 0 /\ d = 1) as (-> & -> & -> & ->) by lia. cbn. tauto. }
    destruct ((a =? 0) && (b =? 0) && (c =? 0) && (d =? 0))%bool eqn:E3; [exfalso; apply N|reflexivity].
    assert (a = 0 /\ b = 0 /\ c = 0 /\ d = 0) as (-> & -> & -> & ->) by lia. cbn. tauto.
Qed.

(** What the multicast code reads. *)
Lemma digits_number : forall p acc, Forall (digit_of 10) p -> digits acc p = fold_left (fun a c => 10 * a + digit_value c) p acc.
Proof.
  induction p as [|c p IH]; intros acc F; [reflexivity|]. inversion F as [|? ? Fc F']; subst. cbn [digits fold_left].
  unfold digit_of in Fc. unfold is_digit. replace ((48 <=? c) && (c <=? 57))%bool with true by lia. rewrite IH by exact F'.
  replace (digit_value c) with (c - 48); [reflexivity|]. unfold digit_value. replace (c <? 58) with true by lia. reflexivity.
Qed.
Lemma atoi_number : forall p, p <> [] -> Forall (digit_of 10) p -> 0 <= number 10 p <= 255 -> atoi p = Some (number 10 p).
Proof.
  intros p N F R. destruct p as [|c p]; [contradiction|]. pose proof F as F0. inversion F as [|? ? Fc _]; subst. unfold digit_of in Fc.
  unfold atoi. cbn [skip_space]. unfold is_space. replace ((c =? 32) || ((9 <=? c) && (c <=? 13)))%bool with false by lia.
  cbv zeta. replace (c =? 45) with false by lia. replace (c =? 43) with false by lia.
  rewrite digits_number by exact F0. fold (number 10 (c :: p)). replace ((-2147483648 <=? number 10 (c :: p)) && (number 10 (c :: p) <=? 2147483647))%bool with true by lia.
  reflexivity.
Qed.
Lemma digit_nodot : forall p, Forall (digit_of 10) p -> existsb (Z.eqb 46) p = false.
Proof.
  induction p as [|c p IH]; intros F; [reflexivity|]. inversion F as [|? ? Fc F']; subst. cbn. unfold digit_of in Fc.
  rewrite IH by exact F'. rewrite orb_false_r. apply Z.eqb_neq. lia.
Qed.
Lemma decimal_read : forall s a b c d, quad 10 s [a; b; c; d] -> octet a -> octet b -> octet c -> octet d -> parse_ipv4 s = Some (ipv4 a b c d).
Proof.
  intros s a b c d (pa & pb & pc & pd & -> & E & F) A B C D. cbn [map] in E. injection E as -> -> -> ->.
  rewrite Forall_forall in F.
  assert (P : forall p, In p [pa; pb; pc; pd] -> octet (number 10 p) -> atoi p = Some (number 10 p)).
  { intros p Hp R. destruct (F _ Hp) as [N G]. apply atoi_number; [exact N|exact G|unfold octet in R; lia]. }
  assert (K : forall p, In p [pa; pb; pc; pd] -> existsb (Z.eqb 46) p = false) by (intros p Hp; apply digit_nodot, F, Hp).
  unfold parse_ipv4. cbn [app].
  rewrite !tokens_word by (apply K; cbn; tauto). rewrite tokens_last; [|apply K; cbn; tauto|apply F; cbn; tauto].
  cbn [app firstn octets]. rewrite !P by (cbn; tauto || assumption).
  rewrite !Z.mod_small by (unfold octet in *; lia). f_equal. cbn [fold_left]. unfold octet, ipv4 in *.
  change (Z.lor (Z.shiftl 0 8 mod 2^32) (number 10 pa)) with (Z.lor 0 (number 10 pa)). rewrite Z.lor_0_l.
  rewrite (parse_step (number 10 pa)) by (unfold octet; lia). rewrite (parse_step (number 10 pa * 256 + number 10 pb)) by (unfold octet; lia).
  rewrite (parse_step ((number 10 pa * 256 + number 10 pb) * 256 + number 10 pc)) by (unfold octet; lia). lia.
Qed.
