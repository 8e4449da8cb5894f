(** Lemmas about the circular queue and the broadcast. *)
From Verif Require Import Base BroadcastModel BroadcastSpec.

#[local] Arguments wrap : simpl never.
#[local] Arguments Nat.modulo : simpl never.
#[local] Arguments Nat.sub : simpl never.
(** *** Modular arithmetic *)
Lemma mod_wrap f i m : f < m -> i <= m -> (f + i) mod m = if Nat.ltb (f + i) m then f + i else f + i - m.
Proof.
  intros Hf Hi. destruct (Nat.ltb_spec (f + i) m) as [Hlt|Hge].
  - apply Nat.mod_small; assumption.
  - symmetry. apply (Nat.mod_unique _ _ 1); lia.
Qed.

Lemma lset_length {T} i (x : T) l : length (lset i x l) = length l.
Proof. revert i; induction l as [|y l IH]; intros [|i]; cbn; auto. Qed.

Lemma nth_lset {T} i j (x : T) l : i < length l ->
  nth_error (lset i x l) j = if Nat.eqb i j then Some x else nth_error l j.
Proof.
  revert i j; induction l as [|y l IH]; intros i j Hi; cbn in Hi; [lia|].
  destruct i as [|i]; destruct j as [|j]; cbn; auto.
  apply IH; lia.
Qed.

Lemma lastn_all {A} n (l : list A) : length l <= n -> lastn n l = l.
Proof. intros Hl. unfold lastn. replace (length l - n) with 0 by lia. reflexivity. Qed.

Lemma lastn_length {A} n (l : list A) : length (lastn n l) = min n (length l).
Proof. unfold lastn. rewrite skipn_length. lia. Qed.

Lemma lastn_snoc_full {A} n (l : list A) x : length l = n -> 0 < n -> lastn n (l ++ [x]) = tl l ++ [x].
Proof.
  intros Hl Hn. unfold lastn. rewrite app_length, Hl. cbn. replace (n + 1 - n) with 1 by lia.
  destruct l as [|a l]; cbn in *; [lia|reflexivity].
Qed.

Section QueueProofs.
  Context {T : Type}.

  Record R (q : rcq T) (cap : nat) (L : list T) : Prop := {
    r_cap : q_max q = cap;
    r_pos : 0 < q_max q;
    r_mem : q_max q <= length (q_mem q);
    r_size : q_size q <= q_max q;
    r_front : q_front q < q_max q;
    r_len : length L = q_size q;
    r_back : q_back q = if Nat.eqb (q_size q) 0 then q_front q else (q_front q + (q_size q - 1)) mod q_max q;
    r_val : forall i, i < q_size q -> nth_error (q_mem q) ((q_front q + i) mod q_max q) = nth_error L i }.

  Lemma wrap_some x m : 0 < m -> wrap x m = Some (x mod m).
  Proof. destruct m; [lia|reflexivity]. Qed.

  Lemma push_R q cap L x : R q cap L -> exists q', q_push x q = Some q' /\ R q' cap (lastn cap (L ++ [x])) /\ length (q_mem q') = length (q_mem q).
  Proof.
    intros HR. destruct HR as [Hcap Hpos Hmem Hsize Hfront Hlen Hback Hval].
    unfold q_push.
    set (bo := if Nat.eqb (q_size q) 0 then Some (q_back q) else wrap (q_back q + 1) (q_max q)).
    assert (Hb : bo = Some ((q_front q + q_size q) mod q_max q)).
    { unfold bo. destruct (Nat.eqb_spec (q_size q) 0) as [E|E].
      - rewrite Hback. rewrite E, Nat.add_0_r, Nat.mod_small by assumption. reflexivity.
      - rewrite wrap_some by assumption. rewrite Hback.
        f_equal. rewrite Nat.add_mod_idemp_l by lia. f_equal. lia. }
    rewrite Hb. clear bo Hb. set (b := (q_front q + q_size q) mod q_max q).
    assert (Hbm : b < q_max q) by (apply Nat.mod_upper_bound; lia).
    unfold q_write; cbn.
    destruct (Nat.ltb_spec b (length (q_mem q))) as [_|Hx]; [|lia]. cbn.
    destruct (Nat.eqb_spec (q_size q) (q_max q)) as [Efull|Enf]; cbn.
    - (* full: overwrite the oldest *)
      rewrite wrap_some by assumption. eexists; split; [reflexivity|]. split; [|cbn; apply lset_length].
      assert (Hb2 : b = q_front q).
      { unfold b. rewrite Efull, mod_wrap by lia. destruct (Nat.ltb_spec (q_front q + q_max q) (q_max q)); lia. }
      rewrite lastn_snoc_full by lia.
      constructor; cbn; auto; try lia.
      + rewrite lset_length; lia.
      + rewrite app_length; cbn. destruct L; cbn in *; lia.
      + destruct (Nat.eqb_spec (q_size q) 0); [lia|]. rewrite Nat.add_mod_idemp_l by lia.
        rewrite Hb2, Efull.
        replace (q_front q + 1 + (q_max q - 1)) with (q_front q + q_max q) by lia.
        rewrite mod_wrap by lia. destruct (Nat.ltb_spec (q_front q + q_max q) (q_max q)); lia.
      + intros i Hi. rewrite nth_lset by lia. rewrite Nat.add_mod_idemp_l by lia.
        replace (q_front q + 1 + i) with (q_front q + (S i)) by lia.
        destruct (Nat.eqb_spec b ((q_front q + S i) mod q_max q)) as [Ei|Ei].
        * rewrite Hb2, mod_wrap in Ei by lia.
          assert (S i = q_max q) as Hsi by (destruct (Nat.ltb_spec (q_front q + S i) (q_max q)); lia).
          assert (Hlt : length (tl L) = i) by (destruct L; cbn in *; lia).
          rewrite nth_error_app2 by lia. rewrite Hlt, Nat.sub_diag. reflexivity.
        * assert (S i < q_max q).
          { destruct (Nat.eq_dec (S i) (q_max q)) as [E|]; [|lia]. exfalso; apply Ei. rewrite Hb2, E, mod_wrap by lia.
            destruct (Nat.ltb_spec (q_front q + q_max q) (q_max q)); lia. }
          rewrite Hval by lia. rewrite nth_error_app1 by (destruct L; cbn in *; lia).
          destruct L; cbn; [|reflexivity]. destruct i; reflexivity.
    - eexists; split; [reflexivity|]. split; [|cbn; apply lset_length].
      rewrite lastn_all by (rewrite app_length; cbn; lia).
      constructor; cbn; auto; try lia.
      + rewrite lset_length; lia.
      + rewrite app_length; cbn; lia.
      + replace (S (q_size q) - 1) with (q_size q) by lia. reflexivity.
      + intros i Hi. rewrite nth_lset by lia.
        destruct (Nat.eqb_spec b ((q_front q + i) mod q_max q)) as [Ei|Ei].
        * unfold b in Ei. rewrite !mod_wrap in Ei by lia.
          assert (i = q_size q) as -> by
            (destruct (Nat.ltb_spec (q_front q + q_size q) (q_max q)); destruct (Nat.ltb_spec (q_front q + i) (q_max q)); lia).
          rewrite nth_error_app2 by lia. rewrite Hlen, Nat.sub_diag. reflexivity.
        * assert (i <> q_size q) by (intros ->; apply Ei; reflexivity).
          rewrite nth_error_app1 by lia. apply Hval; lia.
  Qed.

  Lemma pop_R q cap L : R q cap L ->
    match L with
    | [] => q_pop q = PopThrows
    | _ :: L' => exists q', q_pop q = PopOk q' /\ R q' cap L' /\ length (q_mem q') = length (q_mem q)
    end.
  Proof.
    intros [Hcap Hpos Hmem Hsize Hfront Hlen Hback Hval]. unfold q_pop.
    destruct L as [|x L]; cbn in Hlen.
    - rewrite <- Hlen; reflexivity.
    - destruct (Nat.eqb_spec (q_size q) 0) as [E|E]; [lia|].
      destruct (Nat.eqb_spec (q_size q - 1) 0) as [E1|E1]; cbn.
      + eexists; split; [reflexivity|]. split; [|reflexivity]. constructor; cbn; auto; try lia.
        rewrite Hback. rewrite E1, Nat.add_0_r, Nat.mod_small by assumption. reflexivity.
      + rewrite wrap_some by assumption. eexists; split; [reflexivity|]. split; [|reflexivity].
        constructor; cbn; auto; try lia.
        * destruct (Nat.eqb_spec (q_size q - 1) 0); [lia|].
          rewrite Nat.add_mod_idemp_l by lia. rewrite Hback. f_equal; lia.
        * intros i Hi. rewrite Nat.add_mod_idemp_l by lia.
          replace (q_front q + 1 + i) with (q_front q + S i) by lia. rewrite Hval by lia. reflexivity.
  Qed.

  Lemma reset_R (q : rcq T) m : 0 < m -> m <= length (q_mem q) -> R (q_reset m q) m [].
  Proof. intros Hm Hl. constructor; cbn; auto; lia. Qed.

  Lemma rev_firstn_S (L : list T) k x : nth_error L k = Some x -> rev (firstn (S k) L) = x :: rev (firstn k L).
  Proof.
    revert k; induction L as [|y L IH]; intros [|k] Hn; cbn in Hn; try discriminate.
    - cbn. congruence.
    - specialize (IH k Hn).
      change (rev (firstn (S k) L) ++ [y] = x :: rev (firstn k L) ++ [y]).
      rewrite IH. reflexivity.
  Qed.

  Lemma walk_R q cap L : R q cap L -> forall k fuel, k < q_size q -> k < fuel ->
    q_walk fuel ((q_front q + k) mod q_max q) q = Some (rev (firstn (S k) L)).
  Proof.
    intros HR. destruct HR as [Hcap Hpos Hmem Hsize Hfront Hlen Hback Hval].
    induction k as [|k IH]; intros fuel Hk Hf; (destruct fuel as [|fuel]; [lia|]); cbn [q_walk].
    - rewrite Hval by lia. rewrite Nat.add_0_r, Nat.mod_small by assumption. rewrite Nat.eqb_refl.
      destruct L as [|y L]; cbn in *; [lia|reflexivity].
    - rewrite Hval by lia. destruct (nth_error L (S k)) as [x|] eqn:Ex.
      2:{ apply nth_error_None in Ex; lia. }
      destruct (Nat.eqb_spec ((q_front q + S k) mod q_max q) (q_front q)) as [E|E].
      { rewrite mod_wrap in E by lia. destruct (Nat.ltb_spec (q_front q + S k) (q_max q)); lia. }
      rewrite wrap_some by assumption.
      replace (((q_front q + S k) mod q_max q + q_max q - 1) mod q_max q) with ((q_front q + k) mod q_max q).
      + rewrite IH by lia. rewrite (rev_firstn_S L (S k) x Ex). reflexivity.
      + rewrite (mod_wrap (q_front q) k) by lia. rewrite (mod_wrap (q_front q) (S k)) by lia.
        destruct (Nat.ltb_spec (q_front q + S k) (q_max q)); destruct (Nat.ltb_spec (q_front q + k) (q_max q)); try lia.
        * apply (Nat.mod_unique _ _ 1); lia.
        * replace (q_front q + S k - q_max q + q_max q - 1) with (q_front q + k) by lia.
          rewrite Nat.mod_small by lia. reflexivity.
        * apply (Nat.mod_unique _ _ 1); lia.
  Qed.

  Lemma iter_R q cap L : R q cap L -> q_iter q = Some (rev L).
  Proof.
    intros HR. pose proof HR as [Hcap Hpos Hmem Hsize Hfront Hlen Hback Hval]. unfold q_iter.
    destruct (Nat.eqb_spec (q_size q) 0) as [E|E].
    - rewrite E in Hlen. destruct L; [reflexivity|discriminate].
    - rewrite Hback. rewrite (walk_R q cap L HR) by lia.
      rewrite firstn_all2 by lia. reflexivity.
  Qed.

  Lemma front_R q cap L : R q cap L -> L <> [] -> q_front_val q = nth_error L 0 /\ q_back_val q = nth_error L (length L - 1).
  Proof.
    intros [Hcap Hpos Hmem Hsize Hfront Hlen Hback Hval] HL. unfold q_front_val, q_back_val.
    assert (0 < q_size q) by (destruct L; cbn in *; [congruence|lia]).
    split.
    - rewrite <- Hval by lia. rewrite Nat.add_0_r, Nat.mod_small by assumption. reflexivity.
    - rewrite Hback. destruct (Nat.eqb_spec (q_size q) 0); [lia|]. rewrite Hlen. apply Hval; lia.
  Qed.

  Lemma step_R slots o q cap L : R q cap L -> length (q_mem q) = slots ->
    (forall m, o = QReset m -> 0 < m <= slots) ->
    exists q' r, q_step o q = Some (q', r) /\ length (q_mem q') = slots /\
      let '(cap', L', r') := fifo_step o (cap, L) in R q' cap' L' /\ r = r'.
  Proof.
    intros HR Hsl Hok. destruct o as [x| |m]; cbn.
    - destruct (push_R q cap L x HR) as [q' [Hp [HR' Hl]]]. rewrite Hp. exists q', QDone. repeat split; auto; try apply HR'. congruence.
    - pose proof (pop_R q cap L HR) as Hp. destruct L as [|y L].
      + rewrite Hp. exists q, QThrew. repeat split; auto; apply HR.
      + destruct Hp as [q' [Hp [HR' Hl]]]. rewrite Hp. exists q', QDone. repeat split; auto; try apply HR'. congruence.
    - exists (q_reset m q), QDone. destruct (Hok m eq_refl). repeat split; auto; cbn; lia.
  Qed.

  Lemma run_R slots os : forall q cap L, R q cap L -> length (q_mem q) = slots -> resets_ok slots os ->
    exists q' rs, q_run os q = Some (q', rs) /\
      let '(cap', L', rs') := fifo_run os (cap, L) in R q' cap' L' /\ rs = rs'.
  Proof.
    induction os as [|o os IH]; cbn [q_run fifo_run]; intros q cap L HR Hsl Hok.
    - exists q, []. split; [reflexivity|split; [assumption|reflexivity]].
    - destruct (step_R slots o q cap L HR Hsl) as [q1 [r [Hs [Hl1 HR1]]]].
      + intros m ->. apply Hok; left; reflexivity.
      + rewrite Hs. destruct (fifo_step o (cap, L)) as [[cap1 L1] r1]. destruct HR1 as [HR1 <-].
        destruct (IH q1 cap1 L1 HR1 Hl1) as [q2 [rs [Hr HR2]]].
        * intros m Hin; apply Hok; right; assumption.
        * rewrite Hr. destruct (fifo_run os (cap1, L1)) as [[cap2 L2] rs2]. destruct HR2 as [HR2 <-].
          exists q2, (r :: rs). cbn. split; [reflexivity|split; [assumption|reflexivity]].
  Qed.

  Lemma fifo_length os : forall cap (L : list T), length L <= cap ->
    let '(cap', L', _) := fifo_run os (cap, L) in length L' <= cap'.
  Proof.
    induction os as [|o os IH]; cbn; intros cap L Hl; [assumption|].
    destruct o as [x| |m]; cbn.
    - specialize (IH cap (lastn cap (L ++ [x]))). destruct (fifo_run os _) as [[c l] r].
      apply IH. rewrite lastn_length. lia.
    - destruct L as [|y L]; cbn in *.
      + specialize (IH cap [] ltac:(cbn; lia)). destruct (fifo_run os (cap, [])) as [[c l] r]. exact IH.
      + specialize (IH cap L ltac:(lia)). destruct (fifo_run os (cap, L)) as [[c l] r]. exact IH.
    - specialize (IH m [] ltac:(cbn; lia)). destruct (fifo_run os (m, [])) as [[c l] r]. exact IH.
  Qed.

  Lemma queue_lemma (content : list T) cap os :
    0 < cap <= length content -> resets_ok (length content) os ->
    exists q rs, q_run os (q_reset cap (RCQ 0 0 0 0 content)) = Some (q, rs) /\
      let '(cap', L, rs') := fifo_run os (cap, []) in
      q_size q = length L /\ length L <= cap' /\ q_max q = cap' /\ rs = rs' /\ q_iter q = Some (rev L) /\
      (L <> [] -> q_front_val q = nth_error L 0 /\ q_back_val q = nth_error L (length L - 1)).
  Proof.
    intros Hcap Hok.
    assert (HR0 : R (q_reset cap (RCQ 0 0 0 0 content)) cap []) by (apply reset_R; cbn; lia).
    destruct (run_R (length content) os _ cap [] HR0 eq_refl Hok) as [q [rs [Hr HR]]].
    exists q, rs. split; [assumption|].
    pose proof (fifo_length os cap [] ltac:(cbn; lia)) as Hlen.
    destruct (fifo_run os (cap, [])) as [[cap' L] rs']. destruct HR as [HR <-].
    split; [symmetry; apply (r_len _ _ _ HR)|]. split; [assumption|]. split; [apply (r_cap _ _ _ HR)|].
    split; [reflexivity|]. split; [apply (iter_R _ _ _ HR)|apply (front_R _ _ _ HR)].
  Qed.
End QueueProofs.

(** *** Broadcast *)
Definition sorted_ev (l : list event) : Prop :=
  forall i j a b, i < j -> nth_error l i = Some a -> nth_error l j = Some b -> (ev_ts a < ev_ts b)%Z.

Record BInv (cap : nat) (t : Z) (s : shared) (r : receiver) (sp : bspec) : Prop := {
  b_init : sh_init s = sp_init sp;
  b_slots : rc_slots r = cap /\ cap <= length (q_mem (sh_q s));
  b_pos : 0 < cap;
  b_q : sh_init s = true -> R (sh_q s) cap (lastn cap (sp_sent sp)) /\ (sh_ts s <= t)%Z;
  b_uninit : sh_init s = false -> sp_sent sp = [] /\ sp_seen sp = 0;
  b_seen_le : sp_seen sp <= length (sp_sent sp);
  b_sorted : sorted_ev (sp_sent sp);
  b_bound : forall e, In e (sp_sent sp) -> (ev_ts e <= sh_ts s)%Z;
  b_last : (rc_last r <= (if sh_init s then sh_ts s else t))%Z;
  b_lastt : (rc_last r <= t)%Z;
  b_old : forall i e, i < sp_seen sp -> nth_error (sp_sent sp) i = Some e -> (ev_ts e <= rc_last r)%Z;
  b_new : forall i e, sp_seen sp <= i -> nth_error (sp_sent sp) i = Some e -> (rc_last r < ev_ts e)%Z }.

Lemma in_lastn {A} n (l : list A) x : In x (lastn n l) -> In x l.
Proof.
  unfold lastn. intros Hin. rewrite <- (firstn_skipn (length l - n) l). apply in_app_iff; auto.
Qed.

Lemma nth_skipn {A} n (l : list A) i : nth_error (skipn n l) i = nth_error l (n + i).
Proof. revert l; induction n as [|n IH]; intros l; cbn; [reflexivity|]. destruct l; [destruct i; reflexivity|apply IH]. Qed.

(** Scanning newest-first a list that is sorted and whose first [k] elements are old. *)
Lemma scan_app_stop timeout th last pid lb l1 l2 :
  (match rev l1 with [] => True | e :: _ => True end) ->
  (forall e, In e l1 -> (ev_ts e <= last)%Z) ->
  bc_scan timeout th last pid lb (rev l2 ++ rev l1) = bc_scan timeout th last pid lb (rev l2).
Proof.
  intros _ Hold. induction (rev l2) as [|e l IH]; cbn.
  - assert (Hall : forall e, In e (rev l1) -> (ev_ts e <= last)%Z) by (intros e He; apply Hold, in_rev; exact He).
    destruct (rev l1) as [|e l]; cbn; [reflexivity|].
    specialize (Hall e (or_introl eq_refl)). apply Z.leb_le in Hall. rewrite Hall, orb_true_r. reflexivity.
  - destruct (_ || _); [reflexivity|]. rewrite IH. reflexivity.
Qed.

Lemma scan_sorted pid now timeout lb last l :
  (forall e, In e l -> (last < ev_ts e)%Z) -> sorted_ev (rev l) ->
  bc_scan timeout (now - timeout * 1000) last pid lb l = filter (wanted pid now timeout lb) l.
Proof.
  induction l as [|e l IH]; cbn; intros Hnew Hs; [reflexivity|].
  assert (Hle : Z.leb (ev_ts e) last = false) by (apply Z.leb_gt, Hnew; left; reflexivity).
  rewrite Hle, orb_false_r.
  assert (Hs' : sorted_ev (rev l)).
  { intros i j a b Hij Ha Hb. eapply Hs; [exact Hij| |].
    - rewrite nth_error_app1; [exact Ha|]. apply nth_error_Some; congruence.
    - rewrite nth_error_app1; [exact Hb|]. apply nth_error_Some; congruence. }
  assert (Hlt : forall x, In x l -> (ev_ts x < ev_ts e)%Z).
  { intros x Hx. apply in_rev in Hx. apply In_nth_error in Hx as [i Hi].
    apply (Hs i (length (rev l)) x e).
    - apply nth_error_Some; congruence.
    - rewrite nth_error_app1; [exact Hi|]. apply nth_error_Some; congruence.
    - rewrite nth_error_app2 by lia. rewrite Nat.sub_diag. reflexivity. }
  unfold wanted at 1.
  destruct (Z.eqb_spec timeout 0) as [Et|Et]; cbn.
  - rewrite IH by auto. destruct (Z.eqb (ev_pid e) pid); cbn; [destruct lb; reflexivity|reflexivity].
  - destruct (Z.leb_spec (ev_ts e) (now - timeout * 1000)) as [Hto|Hto].
    + destruct (Z.ltb_spec (now - timeout * 1000) (ev_ts e)); [lia|]. cbn.
      symmetry. apply filter_none. intros x Hx. apply Hlt in Hx. unfold wanted.
      destruct (Z.eqb_spec timeout 0); [lia|]. cbn.
      destruct (Z.ltb_spec (now - timeout * 1000) (ev_ts x)); [lia|reflexivity].
    + destruct (Z.ltb_spec (now - timeout * 1000) (ev_ts e)); [|lia]. cbn.
      rewrite IH by auto. destruct (Z.eqb (ev_pid e) pid); cbn; [destruct lb; reflexivity|reflexivity].
Qed.

Lemma R_firstn {T} (q : rcq T) cap L : R q cap L ->
  R (RCQ (q_back q) (q_front q) (q_size q) (q_max q) (firstn cap (q_mem q))) cap L.
Proof.
  intros [Hcap Hpos Hmem Hsize Hfront Hlen Hback Hval]. constructor; cbn; auto.
  - rewrite firstn_length. lia.
  - intros i Hi. rewrite <- Hval by assumption.
    assert (Hlt : (q_front q + i) mod q_max q < cap) by (rewrite <- Hcap; apply Nat.mod_upper_bound; lia).
    revert Hlt. generalize ((q_front q + i) mod q_max q) as n. generalize (q_mem q) as l. clear.
    intros l; revert cap; induction l as [|a l IH]; intros cap [|n] Hn; destruct cap; cbn; try lia; auto.
    apply IH; lia.
Qed.

Lemma skipn_lastn_split {A} cap k (l : list A) : k <= length l ->
  exists old, lastn cap l = old ++ lastn cap (skipn k l) /\ (forall x, In x old -> In x (firstn k l)).
Proof.
  intros Hk. unfold lastn. rewrite skipn_length.
  destruct (Nat.le_gt_cases cap (length l - k)) as [Hc|Hc].
  - exists []. split; [|intros x []]. cbn. rewrite skipn_skipn. f_equal. lia.
  - replace (length l - k - cap) with 0 by lia. cbn.
    exists (skipn (length l - cap) (firstn k l)). split.
    + rewrite <- (firstn_skipn k l) at 2. rewrite skipn_app. f_equal.
      rewrite firstn_length. replace (length l - cap - min k (length l)) with 0 by lia. reflexivity.
    + intros x Hx. rewrite <- (firstn_skipn (length l - cap) (firstn k l)). apply in_app_iff; auto.
Qed.

Lemma sorted_skipn n l : sorted_ev l -> sorted_ev (skipn n l).
Proof.
  intros Hs i j a b Hij Ha Hb. rewrite nth_skipn in Ha, Hb. eapply Hs; [|exact Ha|exact Hb]. lia.
Qed.

Lemma in_firstn_nth {A} k (l : list A) x : In x (firstn k l) -> exists i, i < k /\ nth_error l i = Some x.
Proof.
  revert l; induction k as [|k IH]; intros [|y l]; cbn; try tauto.
  intros [->|Hin]; [exists 0; split; [lia|reflexivity]|].
  destruct (IH l Hin) as [i [Hi Hn]]. exists (S i). split; [lia|exact Hn].
Qed.

Lemma nth_snoc {A} (l : list A) x i y : nth_error (l ++ [x]) i = Some y ->
  (i < length l /\ nth_error l i = Some y) \/ (i = length l /\ y = x).
Proof.
  intros Hn. destruct (Nat.lt_ge_cases i (length l)) as [Hl|Hl].
  - rewrite nth_error_app1 in Hn by assumption. auto.
  - rewrite nth_error_app2 in Hn by assumption. right.
    destruct (i - length l) as [|k] eqn:E; cbn in Hn; [split; [lia|congruence]|].
    destruct k; discriminate.
Qed.

Lemma lastn_push {A} cap (l : list A) x : 0 < cap -> lastn cap (lastn cap l ++ [x]) = lastn cap (l ++ [x]).
Proof.
  intros Hc. unfold lastn. rewrite !app_length, skipn_length. cbn.
  destruct (Nat.le_gt_cases (length l) cap) as [Hl|Hl].
  - replace (length l - cap) with 0 by lia. cbn. rewrite Nat.sub_0_r. reflexivity.
  - rewrite skipn_app, skipn_skipn, skipn_length. rewrite (skipn_app (length l + 1 - cap)).
    f_equal.
    + f_equal. lia.
    + f_equal. lia.
Qed.

Lemma sorted_snoc_ev l e : sorted_ev l -> (forall x, In x l -> (ev_ts x < ev_ts e)%Z) -> sorted_ev (l ++ [e]).
Proof.
  intros Hs Hlt i j a b Hij Ha Hb.
  apply nth_snoc in Ha as [[Hi Ha]|[Hi Ha]]; apply nth_snoc in Hb as [[Hj Hb]|[Hj Hb]]; subst; try lia.
  - exact (Hs i j a b Hij Ha Hb).
  - apply Hlt. eapply nth_error_In; eauto.
Qed.

Lemma bstep_lemma cap pid o t s r sp : BInv cap t s r sp -> rc_pid r = pid ->
  (match o with BSend now m _ _ _ => (t < now)%Z /\ m = cap | BFlushGlobal now m => (t < now)%Z /\ m = cap | _ => True end) ->
  exists s' r' out, bc_step o (s, r) = Some (s', r', out) /\ rc_pid r' = pid /\
    let '(sp', out') := bspec_step cap pid o sp in
    out = out' /\ BInv cap (match o with BSend now _ _ _ _ => now | BFlushGlobal now _ => now | _ => t end) s' r' sp'.
Proof.
  intros HI Hpid Hok. destruct HI as [Hinit [Hslots Hmem] Hpos Hq Hun Hsle Hsorted Hbound Hlast Hlastt Hold Hnew].
  destruct o as [now m p id ty|now timeout lb|now m|]; cbn.
  - (* send *)
    destruct Hok as [Hlt ->].
    assert (HR : R (sh_q (if sh_init s then s else bc_reset now cap s)) cap (lastn cap (sp_sent sp))
                 /\ length (q_mem (sh_q (if sh_init s then s else bc_reset now cap s))) = length (q_mem (sh_q s))).
    { destruct (sh_init s) eqn:Ei.
      - split; [apply Hq; reflexivity|reflexivity].
      - destruct (Hun eq_refl) as [-> _]. split; [|reflexivity]. apply reset_R; [assumption|assumption]. }
    destruct HR as [HR Hlm].
    unfold bc_send. destruct (push_R _ _ _ (Event p now id ty) HR) as [q' [Hp [HR' Hl']]].
    rewrite Hp. exists (Shared true now q'), r, []. split; [reflexivity|]. split; [assumption|]. split; [reflexivity|].
    assert (Hb' : forall e, In e (sp_sent sp) -> (ev_ts e < now)%Z).
    { intros e He. destruct (sh_init s) eqn:Ei.
      - specialize (Hbound e He). destruct (Hq eq_refl) as [_ Hts]. lia.
      - destruct (Hun eq_refl) as [E _]. rewrite E in He. destruct He. }
    constructor; cbn.
    + reflexivity.
    + split; [assumption|]. rewrite Hl', Hlm. assumption.
    + assumption.
    + intros _. split; [|lia]. rewrite <- lastn_push by assumption. exact HR'.
    + discriminate.
    + rewrite app_length; cbn; lia.
    + apply sorted_snoc_ev; [assumption|]. cbn. exact Hb'.
    + intros e He. apply in_app_iff in He as [He|[<-|[]]]; [apply Hb' in He; lia|cbn; lia].
    + lia.
    + lia.
    + intros i e Hi Hn. apply nth_snoc in Hn as [[Hil Hn]|[Hil ->]]; [eauto|lia].
    + intros i e Hi Hn. apply nth_snoc in Hn as [[Hil Hn]|[Hil ->]]; [eauto|cbn; lia].
  - (* poll *)
    unfold bc_receive. rewrite <- Hinit. destruct (sh_init s) eqn:Ei.
    + destruct (Hq eq_refl) as [HR Hts]. rewrite Hslots.
      pose proof (iter_R _ _ _ (R_firstn _ _ _ HR)) as Hit. rewrite Hit.
      eexists _, _, _. split; [reflexivity|]. split; [assumption|]. split.
      * f_equal. unfold available.
        destruct (skipn_lastn_split cap (sp_seen sp) (sp_sent sp) Hsle) as [old [Hsplit Hin]].
        rewrite Hsplit, rev_app_distr.
        rewrite scan_app_stop.
        -- rewrite Hpid. rewrite scan_sorted.
           ++ apply filter_rev.
           ++ intros e He. apply in_rev in He. apply in_lastn in He.
              apply In_nth_error in He as [i Hi]. rewrite nth_skipn in Hi. eapply Hnew; [|exact Hi]. lia.
           ++ rewrite rev_involutive. unfold lastn. apply sorted_skipn, sorted_skipn. assumption.
        -- destruct (rev old); exact I.
        -- intros e He. apply Hin in He. apply in_firstn_nth in He as [i [Hi Hn]]. eapply Hold; eauto.
      * constructor; cbn.
        -- exact Ei.
        -- split; [reflexivity|assumption].
        -- assumption.
        -- intros _. split; assumption.
        -- congruence.
        -- lia.
        -- assumption.
        -- assumption.
        -- rewrite Ei. lia.
        -- lia.
        -- intros i e Hi Hn. apply Hbound. eapply nth_error_In; eauto.
        -- intros i e Hi Hn. assert (nth_error (sp_sent sp) i <> None) by congruence.
           apply nth_error_Some in H. lia.
    + exists s, r, []. split; [reflexivity|]. split; [assumption|]. split; [reflexivity|].
      constructor; rewrite ?Ei; auto; try discriminate.
  - (* global flush *)
    destruct Hok as [Hlt ->].
    exists (bc_reset now cap s), r, []. split; [reflexivity|]. split; [assumption|]. split; [reflexivity|].
    constructor; cbn.
    + reflexivity.
    + split; assumption.
    + assumption.
    + intros _. split; [|lia]. apply reset_R; assumption.
    + discriminate.
    + lia.
    + intros i j a b _ Ha. destruct i; discriminate.
    + tauto.
    + lia.
    + lia.
    + intros i e Hi; lia.
    + intros i e _ Hn. destruct i; discriminate.
  - (* local flush *)
    exists s, (bc_flush_local s r), []. split; [reflexivity|].
    unfold bc_flush_local. rewrite <- Hinit. destruct (sh_init s) eqn:Ei.
    + destruct (Hq eq_refl) as [HR Hts]. split; [assumption|]. split; [reflexivity|].
      constructor; cbn.
      * exact Ei.
      * split; [assumption|assumption].
      * assumption.
      * intros _. split; assumption.
      * congruence.
      * lia.
      * assumption.
      * assumption.
      * rewrite Ei. lia.
      * lia.
      * intros i e Hi Hn. apply Hbound. eapply nth_error_In; eauto.
      * intros i e Hi Hn. assert (nth_error (sp_sent sp) i <> None) by congruence.
        apply nth_error_Some in H. lia.
    + split; [assumption|]. split; [reflexivity|].
      constructor; rewrite ?Ei; auto; try discriminate.
Qed.

Lemma brun_lemma cap pid os : forall t s r sp, BInv cap t s r sp -> rc_pid r = pid ->
  stamps_from t os -> same_size cap os ->
  exists s' r' outs, bc_run os (s, r) = Some (s', r', outs) /\ outs = snd (bspec_run cap pid os sp).
Proof.
  induction os as [|o os IH]; cbn [bc_run bspec_run]; intros t s r sp HI Hpid Hst [Hss Hsf].
  - exists s, r, []. auto.
  - destruct (bstep_lemma cap pid o t s r sp HI Hpid) as [s1 [r1 [out [Hs [Hpid1 H1]]]]].
    + destruct o as [now m p id ty|now timeout lb|now m|]; cbn in Hst; try exact I.
      * split; [tauto|]. eapply Hss; left; reflexivity.
      * split; [tauto|]. eapply Hsf; left; reflexivity.
    + rewrite Hs. destruct (bspec_step cap pid o sp) as [sp1 out1]. destruct H1 as [<- HI1].
      destruct (IH _ s1 r1 sp1 HI1 Hpid1) as [s2 [r2 [outs [Hr Ho]]]].
      * destruct o as [now m p id ty|now timeout lb|now m|]; cbn in Hst |- *; tauto.
      * split; intros; [eapply Hss|eapply Hsf]; right; eassumption.
      * rewrite Hr. destruct (bspec_run cap pid os sp1) as [sp2 outs2]. cbn in Ho |- *.
        exists s2, r2, (out ++ outs). split; [reflexivity|]. congruence.
Qed.

Definition bspec0 : bspec := BSpec [] 0 false.

Lemma binv0 cap pid content : 0 < cap <= length content ->
  BInv cap 0 (bc_fresh content) (bc_receiver pid cap) bspec0.
Proof.
  intros Hc. constructor; cbn; auto; try lia; try discriminate; try tauto.
  - intros i j a b _ Ha. destruct i; discriminate.
  - intros i e _ Hn. destruct i; discriminate.
Qed.

Lemma broadcast_lemma cap pid content os :
  0 < cap <= length content -> stamps_from 0 os -> same_size cap os ->
  exists s r outs, bc_run os (bc_fresh content, bc_receiver pid cap) = Some (s, r, outs) /\
    outs = snd (bspec_run cap pid os (BSpec [] 0 false)).
Proof.
  intros Hc Hst Hss. apply (brun_lemma cap pid os 0 _ _ bspec0); auto. apply binv0; assumption.
Qed.

Lemma once_aux cap pid lb os : forall sp,
  sp_seen sp <= length (sp_sent sp) -> (sp_init sp = false -> sp_sent sp = []) ->
  polls_often cap (length (sp_sent sp) - sp_seen sp) lb os ->
  length (sp_sent sp) - sp_seen sp <= cap ->
  let '(sp', outs) := bspec_run cap pid os sp in
  concat (map (@rev event) outs) ++ filter (fun e => negb (Z.eqb (ev_pid e) pid) || lb) (skipn (sp_seen sp') (sp_sent sp'))
  = filter (fun e => negb (Z.eqb (ev_pid e) pid) || lb) (skipn (sp_seen sp) (sp_sent sp) ++ sent_events os).
Proof.
  induction os as [|o os IH]; intros sp Hle Hun Hp Hc; cbn [bspec_run sent_events].
  - cbn. rewrite app_nil_r. reflexivity.
  - destruct o as [now m p id ty|now timeout lb'|now m|]; cbn [bspec_step polls_often] in *.
    + destruct Hp as [Hk Hp].
      specialize (IH (BSpec (sp_sent sp ++ [Event p now id ty]) (sp_seen sp) true)).
      destruct (bspec_run cap pid os _) as [sp' outs]. cbn in IH. rewrite app_length in IH. cbn in IH.
      rewrite skipn_app in IH. replace (sp_seen sp - length (sp_sent sp)) with 0 in IH by lia. cbn in IH.
      rewrite <- app_assoc in IH. cbn in IH. apply IH; try lia; try discriminate.
      replace (length (sp_sent sp) + 1 - sp_seen sp) with (length (sp_sent sp) - sp_seen sp + 1) by lia. exact Hp.
    + destruct Hp as [-> [-> Hp]]. destruct (sp_init sp) eqn:Ei.
      * specialize (IH (BSpec (sp_sent sp) (length (sp_sent sp)) true)).
        destruct (bspec_run cap pid os _) as [sp' outs]. cbn [sp_sent sp_seen sp_init] in IH.
        rewrite Nat.sub_diag, skipn_all in IH.
        cbn [app map concat]. rewrite rev_involutive, <- app_assoc, IH; try lia; try discriminate; try assumption.
        change ([] ++ sent_events os) with (sent_events os). rewrite filter_app. f_equal. unfold available. rewrite lastn_all by (rewrite skipn_length; lia).
        apply filter_ext. intros e. unfold wanted. reflexivity.
      * specialize (Hun eq_refl). specialize (IH sp).
        assert (Hl : length (sp_sent sp) - sp_seen sp = 0) by (rewrite Hun; reflexivity).
        destruct (bspec_run cap pid os sp) as [sp' outs]. cbn [app map concat] in *.
        apply IH; try lia; [auto|]. rewrite Hl. exact Hp.
    + destruct Hp.
    + destruct Hp.
Qed.

Lemma polls_often_app cap lb os1 : forall k os2, polls_often cap k lb (os1 ++ os2) -> exists k', polls_often cap k' lb os2.
Proof.
  induction os1 as [|o os1 IH]; cbn; intros k os2 H; [eauto|].
  destruct o; try tauto; eapply IH; apply H.
Qed.

Lemma run_last_poll cap pid lb now os : forall sp, (sp_init sp = false -> sp_sent sp = []) ->
  sp_seen sp <= length (sp_sent sp) ->
  let sp' := fst (bspec_run cap pid (os ++ [BPoll now 0 lb]) sp) in skipn (sp_seen sp') (sp_sent sp') = [].
Proof.
  induction os as [|o os IH]; intros sp Hun Hle; cbn.
  - destruct (sp_init sp) eqn:Ei; cbn; [apply skipn_all|]. rewrite (Hun eq_refl). apply skipn_nil.
  - assert (H : forall sp1 out, bspec_step cap pid o sp = (sp1, out) ->
              (sp_init sp1 = false -> sp_sent sp1 = []) /\ sp_seen sp1 <= length (sp_sent sp1)).
    { intros sp1 out E. destruct o; cbn in E.
      - inversion E; subst; cbn. split; [discriminate|]. rewrite app_length; lia.
      - destruct (sp_init sp); inversion E; subst; cbn; auto; split; first [discriminate|lia].
      - inversion E; subst; cbn. split; [discriminate|lia].
      - destruct (sp_init sp); inversion E; subst; cbn; auto; split; first [discriminate|lia]. }
    destruct (bspec_step cap pid o sp) as [sp1 out]. destruct (H sp1 out eq_refl) as [H1 H2].
    specialize (IH sp1 H1 H2). destruct (bspec_run cap pid (os ++ _) sp1) as [sp2 outs]. exact IH.
Qed.

Lemma exactly_once_lemma cap pid content os now lb :
  0 < cap <= length content -> stamps_from 0 os -> same_size cap os -> polls_often cap 0 lb os ->
  exists s r outs, bc_run (os ++ [BPoll now 0 lb]) (bc_fresh content, bc_receiver pid cap) = Some (s, r, outs) /\
    concat (map (@rev event) outs) = filter (fun e => negb (Z.eqb (ev_pid e) pid) || lb) (sent_events os).
Proof.
  intros Hc Hst [Hs1 Hs2] Hp.
  assert (Hst' : forall t, stamps_from t os -> stamps_from t (os ++ [BPoll now 0 lb])).
  { clear. induction os as [|o os IH]; cbn; intros t H; [exact I|]. destruct o; try (split; [tauto|]); apply IH; tauto. }
  assert (Hp' : forall k, polls_often cap k lb os -> polls_often cap k lb (os ++ [BPoll now 0 lb])).
  { clear. induction os as [|o os IH]; cbn; intros k H; [auto|]. destruct o; try tauto; repeat (split; [tauto|]); apply IH; tauto. }
  assert (Hse : sent_events (os ++ [BPoll now 0 lb]) = sent_events os).
  { clear. induction os as [|o os IH]; cbn; [reflexivity|]. destruct o; auto. f_equal; auto. }
  destruct (broadcast_lemma cap pid content (os ++ [BPoll now 0 lb]) Hc) as [s [r [outs [Hr Ho]]]].
  - apply Hst'; assumption.
  - split; intros; rewrite in_app_iff in H; destruct H as [H|[H|[]]]; eauto; discriminate.
  - exists s, r, outs. split; [exact Hr|].
    pose proof (once_aux cap pid lb (os ++ [BPoll now 0 lb]) bspec0) as HA.
    pose proof (run_last_poll cap pid lb now os bspec0 ltac:(reflexivity) ltac:(cbn; lia)) as HL.
    unfold bspec0 in *. rewrite Hse in HA.
    destruct (bspec_run cap pid _ _) as [sp' outs']. cbn in HA, HL, Ho. subst outs'. rewrite HL in HA.
    cbn in HA. rewrite app_nil_r in HA. apply HA; try lia; auto.
Qed.

(** Two events carry the same time stamp and the receiver polls in between. *)
Lemma equal_stamps_lemma :
  exists os content, sent_events os = [Event 1 5 10 0; Event 1 5 11 0] /\ polls_often 4 0 true os /\
    same_size 4 os /\
    exists s r, bc_run (os ++ [BPoll 6 0 true]) (bc_fresh content, bc_receiver 2 4)
                = Some (s, r, [[Event 1 5 10 0]; []]).
Proof.
  exists [BSend 5 4 1 10 0; BPoll 5 0 true; BSend 5 4 1 11 0], (repeat (Event 0 0 0 0) 4).
  split; [reflexivity|]. split; [cbn; lia|]. split.
  - split; cbn; intros; intuition congruence.
  - eexists _, _. reflexivity.
Qed.

(** A process with a larger queue initialises the file; a receiver with a smaller
    local buffer then walks outside of it. *)
Lemma mixed_sizes_lemma :
  exists os content, stamps_from 0 os /\ 8 <= length content /\
    (forall a m p i t, In (BSend a m p i t) os -> m = 8) /\
    bc_run os (bc_fresh content, bc_receiver 2 4) = None.
Proof.
  exists [BSend 1 8 1 1 0; BSend 2 8 1 2 0; BSend 3 8 1 3 0; BSend 4 8 1 4 0; BSend 5 8 1 5 0; BPoll 6 0 true],
         (repeat (Event 0 0 0 0) 8).
  split; [cbn; lia|]. split; [cbn; lia|]. split.
  - cbn; intros; intuition congruence.
  - reflexivity.
Qed.
