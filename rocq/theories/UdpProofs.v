(** Proofs about the UDP layer. *)
From Verif Require Import Base Sample UdpModel UdpSpec.

(** ** Datagrams *)
Definition bytes (s : text) : Prop := Forall (fun c => (0 <= c < 256)%Z) s.
Lemma c_string_zero n rest : no_zero n -> c_string (n ++ 0%Z :: rest) = Some n.
Proof.
  induction n as [|c n IH]; intros N; cbn.
  - reflexivity.
  - destruct (Z.eqb_spec c 0) as [->|_]; [destruct N; left; reflexivity|]. rewrite IH by (intros H; apply N; right; exact H). reflexivity.
Qed.
Lemma c_string_some s n : c_string s = Some n -> no_zero n /\ exists rest, s = n ++ 0%Z :: rest.
Proof.
  revert n. induction s as [|c s IH]; intros n E; cbn in E; [discriminate|]. destruct (Z.eqb_spec c 0) as [->|Z0].
  - injection E as <-. split; [intros []|]. exists s. reflexivity.
  - destruct (c_string s) as [r|] eqn:C; [|discriminate]. injection E as <-. destruct (IH r eq_refl) as (N & rest & ->). split.
    + intros [H|H]; [congruence|auto].
    + exists rest. reflexivity.
Qed.
Lemma c_string_none s : c_string s = None <-> no_zero s.
Proof.
  split.
  - induction s as [|c s IH]; intros E H; cbn in *; [exact H|]. destruct (Z.eqb_spec c 0); [discriminate|]. destruct (c_string s); [discriminate|]. destruct H as [H|H]; [congruence|exact (IH eq_refl H)].
  - intros N. destruct (c_string s) as [n|] eqn:C; [|reflexivity]. destruct (c_string_some _ _ C) as (_ & rest & ->). destruct N. apply in_or_app. right. left. reflexivity.
Qed.
Lemma accepted_lemma bs name payload : bytes bs -> receive bs = RxSample name payload <-> well_formed bs name payload.
Proof.
  intros B. split.
  - intros E. unfold receive in E. destruct bs as [|b0 [|b1 rest]]; try discriminate. inversion B as [|? ? B0 B']. inversion B' as [|? ? B1 B'']. subst.
    destruct (Z.ltb_spec (Z.of_nat (length (b0 :: b1 :: rest))) (b0 + 256 * b1)); [discriminate|]. destruct (c_string rest) as [n|] eqn:C; [|discriminate].
    destruct (Z.ltb_spec (Z.of_nat (length (b0 :: b1 :: rest))) (2 + (b0 + 256 * b1))) as [|L]; [discriminate|]. injection E as <- <-. cbn [length] in L.
    exists b0, b1, (firstn (Z.to_nat (b0 + 256 * b1)) rest). rewrite firstn_skipn. split; [reflexivity|]. split; [rewrite firstn_length; lia|].
    destruct (c_string_some _ _ C) as [N R]. auto.
  - intros (b0 & b1 & field & -> & L & N & rest & E). unfold receive. cbn [length]. rewrite app_length, L.
    destruct (Z.ltb_spec (Z.of_nat (S (S (length field + length payload)))) (Z.of_nat (length field))); [lia|].
    rewrite E, (c_string_zero name rest N).
    destruct (Z.ltb_spec (Z.of_nat (S (S (length field + length payload)))) (2 + Z.of_nat (length field))); [lia|]. f_equal.
    rewrite <- E, Nat2Z.id, skipn_app, skipn_all, Nat.sub_diag. reflexivity.
Qed.
Lemma rejected_lemma bs : bytes bs -> receive bs = RxDamaged <->
  exists b0 b1 rest, bs = b0 :: b1 :: rest /\ (b0 + 256 * b1 > Z.of_nat (length rest))%Z /\ (no_zero rest -> (b0 + 256 * b1 > Z.of_nat (length rest) + 2)%Z).
Proof.
  intros B. split.
  - intros E. unfold receive in E. destruct bs as [|b0 [|b1 rest]]; try discriminate. exists b0, b1, rest. split; [reflexivity|].
    cbn [length] in E. destruct (Z.ltb_spec (Z.of_nat (S (S (length rest)))) (b0 + 256 * b1)); [lia|]. destruct (c_string rest) as [n|] eqn:C; [|discriminate].
    destruct (Z.ltb_spec (Z.of_nat (S (S (length rest)))) (2 + (b0 + 256 * b1))); [|discriminate]. split; [lia|]. intros N. apply c_string_none in N. congruence.
  - intros (b0 & b1 & rest & -> & L & N). unfold receive. cbn [length]. destruct (Z.ltb_spec (Z.of_nat (S (S (length rest)))) (b0 + 256 * b1)); [reflexivity|].
    destruct (c_string rest) as [n|] eqn:C; [|apply c_string_none in C; specialize (N C); lia].
    destruct (Z.ltb_spec (Z.of_nat (S (S (length rest)))) (2 + (b0 + 256 * b1))); [reflexivity|lia].
Qed.
Lemma outside_lemma bs : receive bs = RxOutside <->
  length bs < 2 \/ exists b0 b1 rest, bs = b0 :: b1 :: rest /\ (b0 + 256 * b1 <= Z.of_nat (length rest) + 2)%Z /\ no_zero rest.
Proof.
  split.
  - intros E. unfold receive in E. destruct bs as [|b0 [|b1 rest]]; [left; cbn; lia|left; cbn; lia|]. right. exists b0, b1, rest. split; [reflexivity|].
    cbn [length] in E. destruct (Z.ltb_spec (Z.of_nat (S (S (length rest)))) (b0 + 256 * b1)); [discriminate|]. destruct (c_string rest) as [n|] eqn:C.
    + destruct (_ <? _)%Z; discriminate.
    + split; [lia|apply c_string_none, C].
  - intros [L|(b0 & b1 & rest & -> & L & N)].
    + destruct bs as [|b0 [|b1 rest]]; try reflexivity. cbn in L. lia.
    + unfold receive. cbn [length]. destruct (Z.ltb_spec (Z.of_nat (S (S (length rest)))) (b0 + 256 * b1)); [lia|]. apply c_string_none in N. rewrite N. reflexivity.
Qed.
Lemma name_size_small name : (Z.of_nat (length name) < 65535)%Z -> name_size name = (Z.of_nat (length name) + 1)%Z.
Proof. intros L. unfold name_size. rewrite (Z.mod_small (Z.of_nat (length name))) by lia. apply Z.mod_small. lia. Qed.
Lemma round_trip name payload : no_zero name -> (Z.of_nat (length name) < 65535)%Z -> receive (datagram name payload) = RxSample name payload.
Proof.
  intros N L. unfold datagram. rewrite (name_size_small name L). set (n := Z.of_nat (length name)) in *.
  replace (Z.to_nat (n + 1)) with (length (name ++ [0%Z])) by (rewrite app_length; cbn; lia). rewrite firstn_all.
  unfold receive. cbn [app length]. replace (((n + 1) mod 256 + 256 * ((n + 1) / 256)))%Z with (n + 1)%Z by (pose proof (Z.div_mod (n + 1) 256 ltac:(lia)); lia).
  rewrite !app_length. cbn [length].
  destruct (Z.ltb_spec (Z.of_nat (S (S (length name + 1 + length payload)))) (n + 1)); [lia|]. rewrite <- app_assoc. cbn [app]. rewrite c_string_zero by exact N.
  destruct (Z.ltb_spec (Z.of_nat (S (S (length name + 1 + length payload)))) (2 + (n + 1))); [lia|]. f_equal.
  replace (Z.to_nat (n + 1)) with (length (name ++ [0%Z])) by (rewrite app_length; cbn; lia).
  change (name ++ 0%Z :: payload) with (name ++ [0%Z] ++ payload). rewrite app_assoc, skipn_app, skipn_all, Nat.sub_diag. reflexivity.
Qed.
Lemma in_firstn {A} (x : A) n l : In x (firstn n l) -> In x l.
Proof. rewrite <- (firstn_skipn n l) at 2. intros H. apply in_or_app. auto. Qed.
Lemma long_name name payload : no_zero name -> no_zero payload -> (Z.of_nat (length name) >= 65535)%Z -> receive (datagram name payload) = RxOutside.
Proof.
  intros N P L. apply outside_lemma. right. unfold datagram. set (s1 := name_size name). assert (B : (0 <= s1 <= Z.of_nat (length name))%Z).
  { unfold s1, name_size. pose proof (Z.mod_pos_bound (Z.of_nat (length name)) 65536 ltac:(lia)). pose proof (Z.mod_pos_bound (Z.of_nat (length name) mod 65536 + 1) 65536 ltac:(lia)). lia. }
  exists (s1 mod 256)%Z, (s1 / 256)%Z, (firstn (Z.to_nat s1) (name ++ [0%Z]) ++ payload). split; [reflexivity|].
  assert (F : firstn (Z.to_nat s1) (name ++ [0%Z]) = firstn (Z.to_nat s1) name) by (rewrite firstn_app; replace (Z.to_nat s1 - length name) with 0 by lia; apply app_nil_r).
  rewrite F. split.
  - rewrite app_length, firstn_length. pose proof (Z.div_mod s1 256 ltac:(lia)). lia.
  - intros H. apply in_app_or in H. destruct H as [H|H]; [apply in_firstn in H; auto|auto].
Qed.
Lemma run_messages has (l : list (text * text)) : Forall (fun m => no_zero (fst m) /\ (Z.of_nat (length (fst m)) < 65535)%Z) l ->
  rx_run has (map (fun m => RxArrive (datagram (fst m) (snd m))) l) Listening = (Listening, map snd (filter (fun m => has (fst m)) l)).
Proof.
  induction l as [|[n p] l IH]; intros F; [reflexivity|]. inversion F as [|? ? [N L] F']. subst. cbn [map rx_run rx_step fst snd filter] in *.
  rewrite round_trip by assumption. rewrite (IH F'). destruct (has n); reflexivity.
Qed.
Lemma run_stuck has l : forall s, s <> Listening -> rx_run has l s = (s, []).
Proof. induction l as [|i l IH]; intros s N; [reflexivity|]. cbn [rx_run]. destruct s; [congruence| |]; cbn; rewrite IH by congruence; reflexivity. Qed.
Lemma deaf_lemma has bs later : receive bs = RxDamaged -> rx_run has (RxArrive bs :: later) Listening = (Deaf, []).
Proof. intros E. cbn [rx_run rx_step]. rewrite E. rewrite run_stuck by discriminate. reflexivity. Qed.
Lemma error_lemma has later : rx_run has (RxError :: later) Listening = (Deaf, []).
Proof. cbn [rx_run rx_step]. rewrite run_stuck by discriminate. reflexivity. Qed.
Lemma good_listening has l : Forall (fun bs => bytes bs /\ good bs) l -> fst (rx_run has (map RxArrive l) Listening) = Listening.
Proof.
  induction l as [|bs l IH]; intros F; [reflexivity|]. inversion F as [|? ? [B (n & p & W)] F']. subst. cbn [map rx_run rx_step].
  apply accepted_lemma in W; [|exact B]. rewrite W. specialize (IH F'). destruct (rx_run has (map RxArrive l) Listening). cbn in *. exact IH.
Qed.

(** ** Memberships *)
Lemma u_run_app l b f a : forall c s s2 tr, u_run l b f (a ++ c) s = Some (s2, tr) ->
  exists s1 tr1 tr2, u_run l b f a s = Some (s1, tr1) /\ u_run l b f c s1 = Some (s2, tr2) /\ tr = tr1 ++ tr2.
Proof.
  induction a as [|op a IH]; intros c s s2 tr E.
  - exists s, [], tr. auto.
  - cbn [app u_run] in *. destruct (u_step l b f op s) as [[s1 e1]|]; [|discriminate].
    destruct (u_run l b f (a ++ c) s1) as [[s3 e3]|] eqn:E3; [|discriminate]. injection E as <- <-.
    destruct (IH c s1 s3 e3 E3) as (s4 & t1 & t2 & A & B & ->). rewrite A. exists s4, (e1 ++ t1), t2. rewrite app_assoc. auto.
Qed.
Lemma u_run_join l b f a : forall c s s1 tr1 s2 tr2, u_run l b f a s = Some (s1, tr1) -> u_run l b f c s1 = Some (s2, tr2) -> u_run l b f (a ++ c) s = Some (s2, tr1 ++ tr2).
Proof.
  induction a as [|op a IH]; intros c s s1 tr1 s2 tr2 E1 E2; cbn [app u_run] in *.
  - injection E1 as <- <-. exact E2.
  - destruct (u_step l b f op s) as [[s3 e3]|]; [|discriminate]. destruct (u_run l b f a s3) as [[s4 e4]|] eqn:E4; [|discriminate].
    injection E1 as <- <-. rewrite (IH c s3 s4 e4 s2 tr2 E4 E2), app_assoc. reflexivity.
Qed.
Lemma u_run_snoc l b f a op s s2 tr : u_run l b f (a ++ [op]) s = Some (s2, tr) ->
  exists s1 tr1 e, u_run l b f a s = Some (s1, tr1) /\ u_step l b f op s1 = Some (s2, e) /\ tr = tr1 ++ e.
Proof.
  intros E. apply u_run_app in E. destruct E as (s1 & t1 & t2 & A & B & ->). cbn [u_run] in B.
  destruct (u_step l b f op s1) as [[s3 e3]|] eqn:E3; [|discriminate]. injection B as <- <-. rewrite app_nil_r.
  exists s1, t1, e3. auto.
Qed.

Section Net.
Variables (base : text) (addr : text -> text).
Definition users (a : text) (l : list (nat * text)) : nat := length (filter (fun st => eqb (addr (snd st)) a) l).
Lemma users_cons a i t l : users a ((i, t) :: l) = (if eqb (addr t) a then 1 else 0) + users a l.
Proof. unfold users. cbn [filter snd]. destruct (eqb (addr t) a); reflexivity. Qed.
Lemma adel_absent (i : nat) (l : list (nat * text)) : ~ In i (keys l) -> adel i l = l.
Proof. intros N. apply filter_all. intros [j t] H. cbn. destruct (eqb i j) eqn:E; [|reflexivity]. apply eqb_true in E. subst j. destruct N. apply (in_map fst) in H. exact H. Qed.
Lemma users_adel a i t l : NoDup (keys l) -> aget i l = Some t -> users a l = (if eqb (addr t) a then 1 else 0) + users a (adel i l).
Proof.
  induction l as [|[j u] l IH]; intros N G; cbn [aget] in G; [discriminate|]. inversion N as [|? ? N1 N2]. subst. rewrite users_cons. destruct (eqb i j) eqn:E.
  - apply eqb_true in E. subst j. injection G as <-. unfold adel at 1. cbn [filter fst]. rewrite eqb_refl. cbn [negb]. fold (adel i l). rewrite adel_absent by exact N1. reflexivity.
  - unfold adel at 1. cbn [filter fst]. rewrite E. cbn [negb]. fold (adel i l). rewrite users_cons, (IH N2 G). lia.
Qed.
Lemma users_needed a l : (0 <? users a l) = existsb (fun st => eqb (addr (snd st)) a) l.
Proof.
  induction l as [|[i t] l IH]; [reflexivity|]. rewrite users_cons. cbn [existsb snd]. rewrite <- IH. destruct (eqb (addr t) a); reflexivity.
Qed.

Record uinv (ops : list uop) (s : ulayer) (tr : list uev) : Prop := {
  i_live : ul_live s = subscribers ops;
  i_nd : NoDup (keys (ul_live s));
  i_cnt : forall a, aget a (ul_counts s) = if users a (ul_live s) =? 0 then None else Some (Z.of_nat (users a (ul_live s)));
  i_sound : forall a, In a (ul_members s) -> a = base \/ 0 < users a (ul_live s);
  i_complete : joins_succeed tr -> forall a, 0 < users a (ul_live s) -> In a (ul_members s);
  i_turns : forall a, a <> base -> turns (moves a tr) (0 <? users a (ul_live s)) }.
Lemma moves_app a x y : moves a (x ++ y) = moves a x ++ moves a y. Proof. apply flat_map_app. Qed.
Lemma succeed_app x y : joins_succeed (x ++ y) -> joins_succeed x /\ joins_succeed y.
Proof. intros H. split; intros a I; apply (H a), in_or_app; auto. Qed.
Lemma join_cases a ok m m' r : join a ok m = (m', r) -> (r = true /\ m' = a :: m) \/ (r = false /\ m' = m).
Proof. unfold join. destruct (ok && negb (existsb (eqb a) m))%bool; intros E; injection E as <- <-; auto. Qed.
Lemma in_leave a x m : In x (leave a m) <-> x <> a /\ In x m.
Proof. unfold leave. rewrite filter_In, negb_true_iff. split; [intros [I N]; apply eqb_false in N; split; [congruence|exact I]|intros [N I]; split; [exact I|apply neq_eqb; congruence]]. Qed.
Lemma counts_set a t l i : (0 <? users a ((i, t) :: l)) = (eqb (addr t) a || (0 <? users a l))%bool.
Proof. rewrite users_cons. destruct (eqb (addr t) a); reflexivity. Qed.

Lemma amem_false (i : nat) (l : list (nat * text)) : amem i l = false -> ~ In i (keys l).
Proof. unfold amem. destruct (aget i l) eqn:G; [discriminate|]. intros _. apply aget_none, G. Qed.
Lemma inv_step ops op s s' tr e : uinv ops s tr -> u_step false base addr op s = Some (s', e) -> ul_race s' = false -> uinv (ops ++ [op]) s' (tr ++ e).
Proof.
  intros V E Ra. assert (SUB : forall o, subscribers (ops ++ [o]) = match o with UAdd _ sub topic _ _ => (sub, topic) :: ul_live s | URem _ sub => adel sub (ul_live s) | ULeave _ => ul_live s end).
  { intros o. unfold subscribers. rewrite fold_left_app. fold (subscribers ops). cbn [fold_left]. rewrite <- (i_live _ _ _ V). reflexivity. }
  unfold u_step in E. destruct (ul_race s); [discriminate|]. destruct op as [thr sub topic ok okb|thr sub|thr].
  - destruct (amem sub (ul_live s)) eqn:Fr; [discriminate|]. apply amem_false in Fr. destruct (ul_inside s); [|injection E as <- <-; discriminate].
    set (m1e1 := if ul_started s then (ul_members s, []) else let (m, r) := join base okb (ul_members s) in (m, [UJoin base r])) in *.
    cbv zeta in E. fold m1e1 in E. destruct m1e1 as [m1 e1] eqn:M1. unfold m1e1 in M1.
    assert (H1 : (forall a, In a m1 -> a = base \/ In a (ul_members s)) /\ (forall a, In a (ul_members s) -> In a m1) /\ (forall a, a <> base -> moves a e1 = []) ).
    { destruct (ul_started s); [injection M1 as <- <-; auto|]. destruct (join base okb (ul_members s)) as [m r] eqn:J. injection M1 as <- <-.
      destruct (join_cases _ _ _ _ _ J) as [[_ ->]|[_ ->]].
      - repeat split; [intros a [H|H]; auto|intros a H; right; exact H|]. intros a N. cbn. rewrite neq_eqb by congruence. reflexivity.
      - repeat split; auto. intros a N. cbn. rewrite neq_eqb by congruence. reflexivity. }
    destruct H1 as (S1 & C1 & T1). pose proof (i_cnt _ _ _ V (addr topic)) as CT. destruct (aget (addr topic) (ul_counts s)) as [n|] eqn:G.
    + injection E as <- <-. destruct (Nat.eqb_spec (users (addr topic) (ul_live s)) 0) as [|NZ]; [discriminate|]. injection CT as CT. constructor; cbn [ul_live ul_counts ul_members].
      * rewrite SUB. reflexivity.
      * constructor; [exact Fr|apply (i_nd _ _ _ V)].
      * intros a. rewrite aget_aset, users_cons. destruct (eqb a (addr topic)) eqn:Q.
        -- apply eqb_true in Q. subst a. rewrite eqb_refl. destruct (Nat.eqb_spec (1 + users (addr topic) (ul_live s)) 0); [lia|]. f_equal. lia.
        -- rewrite eqb_sym, Q. apply (i_cnt _ _ _ V).
      * intros a H. rewrite users_cons. destruct (S1 a H) as [|H']; [auto|]. destruct (i_sound _ _ _ V a H'); [auto|right; lia].
      * intros J a H. apply succeed_app in J. destruct J as [J _]. apply C1. rewrite users_cons in H. destruct (eqb (addr topic) a) eqn:Q.
        -- apply eqb_true in Q. subst a. apply (i_complete _ _ _ V J). lia.
        -- apply (i_complete _ _ _ V J). lia.
      * intros a N. rewrite moves_app, T1, app_nil_r by exact N. rewrite counts_set. pose proof (i_turns _ _ _ V a N) as T. destruct (eqb (addr topic) a) eqn:Q; [|exact T].
        apply eqb_true in Q. subst a. destruct (Nat.ltb_spec 0 (users (addr topic) (ul_live s))); [exact T|lia].
    + destruct (join (addr topic) ok m1) as [m2 r] eqn:J. injection E as <- <-. destruct (Nat.eqb_spec (users (addr topic) (ul_live s)) 0) as [UZ|]; [|discriminate].
      constructor; cbn [ul_live ul_counts ul_members].
      * rewrite SUB. reflexivity.
      * constructor; [exact Fr|apply (i_nd _ _ _ V)].
      * intros a. rewrite aget_aset, users_cons. destruct (eqb a (addr topic)) eqn:Q.
        -- apply eqb_true in Q. subst a. rewrite eqb_refl, UZ. reflexivity.
        -- rewrite eqb_sym, Q. apply (i_cnt _ _ _ V).
      * intros a H. rewrite users_cons. assert (K : a = addr topic \/ In a m1) by (destruct (join_cases _ _ _ _ _ J) as [[_ ->]|[_ ->]]; [destruct H; auto|auto]).
        destruct K as [->|K]; [rewrite eqb_refl; right; lia|]. destruct (S1 a K) as [|H']; [auto|]. destruct (i_sound _ _ _ V a H'); [auto|right; lia].
      * intros Js a H. apply succeed_app in Js. destruct Js as [Js Je]. destruct (join_cases _ _ _ _ _ J) as [[-> ->]|[-> ->]].
        -- rewrite users_cons in H. destruct (eqb (addr topic) a) eqn:Q; [apply eqb_true in Q; left; exact Q|]. right. apply C1, (i_complete _ _ _ V Js). lia.
        -- exfalso. apply (Je (addr topic)), in_or_app. right. left. reflexivity.
      * intros a N. rewrite !moves_app, T1 by exact N. rewrite counts_set. pose proof (i_turns _ _ _ V a N) as T. cbn [app moves flat_map]. destruct (eqb (addr topic) a) eqn:Q; cbn [orb app].
        -- apply eqb_true in Q. subst a. rewrite UZ in T. apply turns_in, T.
        -- rewrite app_nil_r. exact T.
  - destruct (aget sub (ul_live s)) as [topic|] eqn:L; [|discriminate]. destruct (ul_inside s); [|injection E as <- <-; discriminate]. cbn [andb] in E. cbv zeta in E.
    pose proof (i_cnt _ _ _ V (addr topic)) as CT. pose proof (fun a => users_adel a sub topic (ul_live s) (i_nd _ _ _ V) L) as UA.
    assert (UP : users (addr topic) (ul_live s) <> 0) by (specialize (UA (addr topic)); rewrite eqb_refl in UA; lia).
    destruct (Nat.eqb_spec (users (addr topic) (ul_live s)) 0) as [|_]; [contradiction|]. rewrite CT in E.
    destruct (Z.eqb_spec (Z.of_nat (users (addr topic) (ul_live s)) - 1) 0) as [Z1|Z1]; injection E as <- <-; constructor; cbn [ul_live ul_counts ul_members].
    + rewrite SUB. reflexivity.
    + apply nodup_adel, (i_nd _ _ _ V).
    + intros a. rewrite aget_adel. specialize (UA a). destruct (eqb a (addr topic)) eqn:Q.
      * apply eqb_true in Q. subst a. rewrite eqb_refl in UA. replace (users (addr topic) (adel sub (ul_live s))) with 0 by lia. reflexivity.
      * rewrite eqb_sym, Q in UA. cbn [Nat.add] in UA. rewrite <- UA. apply (i_cnt _ _ _ V).
    + intros a H. apply in_leave in H. destruct H as [NE H]. specialize (UA a). rewrite (neq_eqb (addr topic) a) in UA by congruence. cbn [Nat.add] in UA. rewrite <- UA. apply (i_sound _ _ _ V a H).
    + intros J a H. apply succeed_app in J. destruct J as [J _]. pose proof (UA a) as U. apply in_leave. split.
      * intros ->. rewrite eqb_refl in U. lia.
      * apply (i_complete _ _ _ V J). lia.
    + intros a N. rewrite moves_app. cbn [moves flat_map]. pose proof (i_turns _ _ _ V a N) as T. pose proof (UA a) as U. destruct (eqb (addr topic) a) eqn:Q; cbn [app].
      * apply eqb_true in Q. subst a. replace (users (addr topic) (adel sub (ul_live s))) with 0 by lia. replace (users (addr topic) (ul_live s)) with 1 in T by lia. apply turns_out, T.
      * rewrite app_nil_r. cbn [Nat.add] in U. rewrite <- U. exact T.
    + rewrite SUB. reflexivity.
    + apply nodup_adel, (i_nd _ _ _ V).
    + intros a. rewrite aget_aset. specialize (UA a). destruct (eqb a (addr topic)) eqn:Q.
      * apply eqb_true in Q. subst a. rewrite eqb_refl in UA. destruct (Nat.eqb_spec (users (addr topic) (adel sub (ul_live s))) 0); [lia|]. f_equal. lia.
      * rewrite eqb_sym, Q in UA. cbn [Nat.add] in UA. rewrite <- UA. apply (i_cnt _ _ _ V).
    + intros a H. destruct (i_sound _ _ _ V a H) as [|P]; [auto|]. right. specialize (UA a). destruct (eqb (addr topic) a) eqn:Q; [|lia]. apply eqb_true in Q. subst a. lia.
    + intros J a H. apply succeed_app in J. destruct J as [J _]. apply (i_complete _ _ _ V J). specialize (UA a). lia.
    + intros a N. rewrite moves_app. cbn [moves flat_map]. rewrite app_nil_r. pose proof (i_turns _ _ _ V a N) as T. pose proof (UA a) as U.
      replace (0 <? users a (adel sub (ul_live s))) with (0 <? users a (ul_live s)); [exact T|]. destruct (eqb (addr topic) a) eqn:Q; [|rewrite U; reflexivity].
      apply eqb_true in Q. subst a. destruct (Nat.ltb_spec 0 (users (addr topic) (ul_live s))), (Nat.ltb_spec 0 (users (addr topic) (adel sub (ul_live s)))); lia.
  - destruct (ul_inside s) as [|t [|]]; try discriminate. destruct (t =? thr); [|discriminate]. injection E as <- <-. rewrite app_nil_r.
    constructor; cbn [ul_live ul_counts ul_members]; [rewrite SUB; reflexivity|apply V..].
Qed.
Lemma race_before l op s s' e : u_step l base addr op s = Some (s', e) -> ul_race s = false.
Proof. unfold u_step. destruct (ul_race s); [discriminate|reflexivity]. Qed.
Lemma inv_run ops : forall s tr, u_run false base addr ops ulayer0 = Some (s, tr) -> ul_race s = false -> uinv ops s tr.
Proof.
  induction ops as [|op ops IH] using rev_ind; intros s tr E Ra.
  - cbn in E. injection E as <- <-. constructor; cbn; auto; try tauto; try lia; try constructor.
  - apply u_run_snoc in E. destruct E as (s1 & t1 & e & A & B & ->). eapply inv_step; eauto. apply IH; [exact A|]. eapply race_before; eauto.
Qed.
End Net.

Lemma members_lemma base addr ops s tr : u_run false base addr ops ulayer0 = Some (s, tr) -> ul_race s = false -> joins_succeed tr ->
  forall a, a <> base -> In a (ul_members s) <-> needed addr ops a = true.
Proof.
  intros E Ra J a N. pose proof (inv_run base addr ops s tr E Ra) as V. unfold needed. rewrite <- (i_live _ _ _ _ _ V), <- users_needed, Nat.ltb_lt. split.
  - intros H. destruct (i_sound _ _ _ _ _ V a H); [contradiction|assumption].
  - apply (i_complete _ _ _ _ _ V J).
Qed.
Lemma members_sound base addr ops s tr : u_run false base addr ops ulayer0 = Some (s, tr) -> ul_race s = false ->
  forall a, In a (ul_members s) -> a = base \/ needed addr ops a = true.
Proof.
  intros E Ra a H. pose proof (inv_run base addr ops s tr E Ra) as V. unfold needed. rewrite <- (i_live _ _ _ _ _ V), <- users_needed, Nat.ltb_lt. apply (i_sound _ _ _ _ _ V a H).
Qed.
Lemma needed_member base addr ops s tr : u_run false base addr ops ulayer0 = Some (s, tr) -> ul_race s = false -> joins_succeed tr ->
  forall sub topic, In (sub, topic) (subscribers ops) -> In (addr topic) (ul_members s).
Proof.
  intros E Ra J sub topic H. pose proof (inv_run base addr ops s tr E Ra) as V. apply (i_complete _ _ _ _ _ V J). rewrite (i_live _ _ _ _ _ V). apply Nat.ltb_lt. rewrite users_needed.
  apply existsb_exists. exists (sub, topic). split; [exact H|apply eqb_refl].
Qed.
Lemma turns_lemma base addr ops s tr : u_run false base addr ops ulayer0 = Some (s, tr) -> ul_race s = false ->
  forall a, a <> base -> turns (moves a tr) (needed addr ops a).
Proof.
  intros E Ra a N. pose proof (inv_run base addr ops s tr E Ra) as V. unfold needed. rewrite <- (i_live _ _ _ _ _ V), <- users_needed. apply (i_turns _ _ _ _ _ V a N).
Qed.
Lemma local_lemma base addr ops : forall s tr, u_run true base addr ops ulayer0 = Some (s, tr) -> tr = [] /\ ul_members s = [].
Proof.
  enough (G : forall s tr, u_run true base addr ops ulayer0 = Some (s, tr) -> tr = [] /\ ul_members s = [] /\ (ul_started s = false -> ul_counts s = []) /\ (ul_race s = false -> ul_started s = false -> ul_live s = [])).
  { intros s tr E. destruct (G s tr E) as (A & B & _). auto. }
  induction ops as [|op ops IH] using rev_ind; intros s tr E.
  - cbn in E. injection E as <- <-. auto.
  - apply u_run_snoc in E. destruct E as (s1 & t1 & e & A & B & ->). destruct (IH s1 t1 A) as (-> & M & C & L).
    unfold u_step in B. destruct (ul_race s1) eqn:Ra; [discriminate|]. destruct op as [thr sub topic ok okb|thr sub|thr].
    + destruct (amem sub (ul_live s1)); [discriminate|]. destruct (ul_inside s1); [|injection B as <- <-; cbn; repeat split; auto; discriminate]. cbv zeta in B.
      destruct (ul_started s1); injection B as <- <-; cbn; repeat split; auto; discriminate.
    + destruct (aget sub (ul_live s1)) as [topic|] eqn:G; [|discriminate]. destruct (ul_inside s1); [|injection B as <- <-; cbn; repeat split; auto; discriminate].
      destruct (ul_started s1) eqn:St; cbn [andb] in B; cbv zeta in B.
      * injection B as <- <-. cbn. repeat split; auto; discriminate.
      * rewrite (L eq_refl eq_refl) in G. discriminate.
    + destruct (ul_inside s1) as [|t [|]]; try discriminate. destruct (t =? thr); [|discriminate]. injection B as <- <-. cbn. auto.
Qed.
(** Overlapping callers. *)
Lemma race_lemma base addr : exists s tr, u_run false base addr [UAdd 1 1 (str "a") true true; UAdd 2 2 (str "b") true true] ulayer0 = Some (s, tr) /\ ul_race s = true.
Proof.
  cbn [u_run u_step ul_race ulayer0 ul_live ul_inside ul_started ul_members ul_counts aget amem]. destruct (join base true []) as [m r]. cbv zeta.
  destruct (join (addr (str "a")) true m) as [m2 r2]. do 2 eexists. split; [cbn; reflexivity|reflexivity].
Qed.
(** A failed join is not repeated. *)
Lemma more_lemma base addr topic : forall n i m x live, (forall j, i <= j -> ~ In j (keys live)) ->
  exists live' x', u_run false base addr (subscribe_again topic n i) (ULayer true m [(addr topic, x)] live [] false) = Some (ULayer true m [(addr topic, x')] live' [] false, []).
Proof.
  induction n as [|n IH]; intros i m x live F.
  - exists live, x. reflexivity.
  - cbn [subscribe_again u_run u_step ul_race ul_live ul_inside ul_started ul_members ul_counts]. replace (amem i live) with false.
    2:{ symmetry. unfold amem. destruct (aget i live) eqn:G; [|reflexivity]. destruct (F i ltac:(lia)). apply aget_in_keys in G. exact G. }
    cbv zeta. cbn [aget]. rewrite eqb_refl. cbn [aset]. rewrite eqb_refl. cbn [ul_race ul_inside ul_started ul_members ul_counts ul_live]. cbn.
    destruct (IH (S i) m (x + 1)%Z ((i, topic) :: live)) as (live' & x' & R).
    + intros j J [H|H]; [cbn in H; lia|apply (F j); [lia|exact H]].
    + rewrite R. eauto.
Qed.
Lemma failed_join base addr topic n : addr topic <> base ->
  exists s, u_run false base addr ([UAdd 1 0 topic false true; ULeave 1] ++ subscribe_again topic n 1) ulayer0 = Some (s, [UJoin base true; UJoin (addr topic) false]) /\
  ~ In (addr topic) (ul_members s) /\ needed addr ([UAdd 1 0 topic false true; ULeave 1] ++ subscribe_again topic n 1) (addr topic) = true.
Proof.
  intros N. destruct (more_lemma base addr topic n 1 [base] 1%Z [(0, topic)]) as (live' & x' & R).
  { intros j J [H|[]]. cbn in H. lia. }
  assert (E : u_run false base addr ([UAdd 1 0 topic false true; ULeave 1] ++ subscribe_again topic n 1) ulayer0 = Some (ULayer true [base] [(addr topic, x')] live' [] false, [UJoin base true; UJoin (addr topic) false])).
  { replace [UJoin base true; UJoin (addr topic) false] with ([UJoin base true; UJoin (addr topic) false] ++ []) by reflexivity. eapply u_run_join; [|exact R]. reflexivity. }
  eexists. split; [exact E|]. split; [intros [H|[]]; cbn in H; congruence|].
  pose proof (inv_run base addr _ _ _ E eq_refl) as V. unfold needed. rewrite <- (i_live _ _ _ _ _ V), <- users_needed. pose proof (i_cnt _ _ _ _ _ V (addr topic)) as C. cbn [ul_counts aget] in C. rewrite eqb_refl in C.
  destruct (Nat.eqb_spec (users addr (addr topic) (ul_live (ULayer true [base] [(addr topic, x')] live' [] false))) 0); [discriminate|]. apply Nat.ltb_lt. lia.
Qed.
