From Verif Require Import Base Sample ExpMapModel ExpMapProofs ConnModel ConnSpec ConnProofs WrModel WrSpec.

Notation sl0 := (SubLayers false false false).

Lemma w_run_app c a b w : w_run c (a ++ b) w =
  match w_run c a w with
  | Some (w1, o1) => match w_run c b w1 with Some (w2, o2) => Some (w2, o1 ++ o2) | None => None end
  | None => None
  end.
Proof.
  revert w. induction a as [|o a IH]; intros w; cbn.
  - destruct (w_run c b w) as [[w2 o2]|]; reflexivity.
  - destruct (w_step c o w) as [[w1 o1]|]; [|reflexivity]. rewrite IH.
    destruct (w_run c a w1) as [[w2 o2]|]; [|reflexivity].
    destruct (w_run c b w2) as [[w3 o3]|]; [|reflexivity]. now rewrite app_assoc.
Qed.

Lemma common_iff c s l : existsb (eqb l) (pub_layers c) && existsb (eqb l) (sub_layers s) = true <-> common c s l.
Proof.
  unfold common, pub_layers, sub_layers. rewrite andb_true_iff.
  destruct (wc_udp c), (wc_shm c), (wc_tcp c), (sl_udp s), (sl_shm s), (sl_tcp s), l; cbn; split; intros; try (destruct H; discriminate); intuition (congruence || discriminate || auto).
Qed.
Lemma find_split {A} (f : A -> bool) l x : find f l = Some x <-> exists a b, l = a ++ x :: b /\ f x = true /\ forall y, In y a -> f y = false.
Proof.
  induction l as [|y l IH]; cbn.
  - split; [discriminate|]. intros (a & b & E & _). now destruct a.
  - destruct (f y) eqn:F.
    + split.
      * intros [= <-]. exists [], l. split; [reflexivity|]. split; [exact F|]. intros y0 [].
      * intros (a & b & E & Fx & NA). destruct a as [|z a]; cbn in E; [congruence|].
        injection E as -> ->. rewrite (NA z) in F by now left. discriminate.
    + rewrite IH. split.
      * intros (a & b & -> & Fx & NA). exists (y :: a), b. cbn. split; [reflexivity|]. split; [exact Fx|]. intros z [<-|Hz]; auto.
      * intros (a & b & E & Fx & NA). destruct a as [|z a]; cbn in E.
        -- injection E as -> ->. congruence.
        -- injection E as -> ->. exists a, b. split; [reflexivity|]. split; [exact Fx|]. intros w Hw. apply NA. now right.
Qed.
Lemma common_not_none c s : ~ common c s tl_none.
Proof. unfold common. intuition discriminate. Qed.

Lemma determine_lemma c k s l : l <> tl_none ->
  (determine_layer c (pub_layers c) (sub_layers s) (eqb (wc_host c) (si_host k)) = l <-> best_layer c k s l).
Proof.
  intros NN. unfold determine_layer, best_layer.
  set (prio := if eqb (wc_host c) (si_host k) then wc_prio_local c else wc_prio_remote c).
  set (f := fun l => existsb (eqb l) (pub_layers c) && existsb (eqb l) (sub_layers s)).
  assert (FF : forall x, f x = false <-> ~ common c s x).
  { intros x. rewrite <- common_iff. unfold f. now rewrite not_true_iff_false. }
  transitivity (find f prio = Some l).
  - destruct (find f prio); split; try congruence. 
  - rewrite find_split. split; intros (a & b & E & A & B); exists a, b; (split; [exact E|]); split.
    + apply common_iff, A.
    + intros x Hx. apply FF, B, Hx.
    + apply common_iff, A.
    + intros x Hx. apply FF, B, Hx.
Qed.
Lemma determine_none_lemma c k s :
  determine_layer c (pub_layers c) (sub_layers s) (eqb (wc_host c) (si_host k)) = tl_none <-> (forall l, ~ best_layer c k s l).
Proof.
  split.
  - intros E l B. pose proof B as B'. destruct B' as (_ & _ & _ & CM & _).
    assert (l <> tl_none) by (intros ->; eapply common_not_none, CM).
    apply determine_lemma in B; [congruence|assumption].
  - intros N. destruct (eq_dec (determine_layer c (pub_layers c) (sub_layers s) (eqb (wc_host c) (si_host k))) tl_none) as [E|E]; [exact E|].
    exfalso. eapply N. apply determine_lemma; [exact E|reflexivity].
Qed.

Record WInv (c : wcfg) (os : list wcall) (w : writer) : Prop := {
  wi_pend : w_pend w = None;
  wi_clock : w_clock w = Z.of_nat (sends os);
  wi_id : w_user_id w = id_after os;
  wi_conn : micro_run sl0 (serial (conn_calls os)) (conn_new (wc_timeout c)) = Some (w_conn w);
  wi_udp : w_udp w = true <-> activated c os tl_udp;
  wi_shm : w_shm w = true <-> activated c os tl_shm;
  wi_tcp : w_tcp w = true <-> activated c os tl_tcp }.

Lemma sends_snoc os o : sends (os ++ [o]) = sends os + match o with CSend _ _ _ _ _ => 1 | _ => 0 end.
Proof. unfold sends. rewrite filter_app, app_length. destruct o; reflexivity. Qed.
Lemma activated_snoc c os o l : activated c (os ++ [o]) l <->
  activated c os l \/ exists now k s, o = CSub now k s /\ best_layer c k s l.
Proof.
  unfold activated. split.
  - intros (now & k & s & Hin & B). rewrite in_app_iff in Hin. destruct Hin as [Hin|[E|[]]]; [left|right]; exists now, k, s; auto.
  - intros [(now & k & s & Hin & B)|(now & k & s & E & B)]; exists now, k, s; rewrite in_app_iff; (split; [|exact B]); [auto|]. right. left. auto.
Qed.
Lemma conn_calls_snoc os o : conn_calls (os ++ [o]) = conn_calls os ++
  match o with CSub now k s => [WApply now k s] | CUnsub k => [WRemove k] | CCheck now => [WCheck now] | _ => [] end.
Proof. unfold conn_calls. rewrite flat_map_app. cbn. now rewrite app_nil_r. Qed.

Lemma firstn_full (p : list Z) : read_buf (length p) p = Some p.
Proof. unfold read_buf. rewrite Nat.leb_refl, firstn_all. reflexivity. Qed.

(** A whole send. *)
Lemma send_lemma c w p time a b d : w_pend w = None -> subscribed w ->
  exists w', w_run c (wcall_ops (CSend p time a b d)) w =
    Some (w', map (fun l => WTx (Tx l (w_user_id w) (w_clock w + 1)%Z time (snd_hash (wc_tid_hash c) (w_clock w + 1)%Z) (length p) (Some p))) (layers_of w)
              ++ [WRet (if (w_shm w && a) || (w_udp w && b) || (w_tcp w && d) then length p else 0)]) /\
    w_pend w' = None /\ w_clock w' = (w_clock w + 1)%Z /\ w_user_id w' = w_user_id w /\ w_conn w' = w_conn w /\
    w_udp w' = w_udp w /\ w_shm w' = w_shm w /\ w_tcp w' = w_tcp w.
Proof.
  destruct w as [uid i clk sz u s t buf pe cn]. intros P S. cbn in P. subst pe. unfold subscribed in S. cbn in S.
  cbn. unfold w_begin. cbn. destruct (em_contents (cn_map cn)) eqn:E; [congruence|]. clear S.
  unfold layers_of. cbn. destruct u, s, t, (wc_zero_copy c); cbn; rewrite ?firstn_full; cbn;
    rewrite ?andb_true_r; destruct a, b, d; cbn; eexists; (split; [reflexivity|]); cbn; auto 10.
Qed.
Lemma refresh_lemma c w p time a b d : w_pend w = None -> ~ subscribed w ->
  exists w', w_run c (wcall_ops (CSend p time a b d)) w = Some (w', [WRet (length p)]) /\
    w_pend w' = None /\ w_clock w' = (w_clock w + 1)%Z /\ w_user_id w' = w_user_id w /\ w_conn w' = w_conn w /\
    w_udp w' = w_udp w /\ w_shm w' = w_shm w /\ w_tcp w' = w_tcp w.
Proof.
  destruct w as [uid i clk sz u s t buf pe cn]. intros P S. cbn in P. subst pe. unfold subscribed in S. cbn in S.
  cbn. unfold w_begin. cbn. destruct (em_contents (cn_map cn)) eqn:E; [|exfalso; apply S; discriminate].
  eexists. split; [reflexivity|]. cbn. auto 10.
Qed.

Lemma act_none c os o l (w : bool) : (w = true <-> activated c os l) -> (forall now k s, o <> CSub now k s) ->
  (w = true <-> activated c (os ++ [o]) l).
Proof. intros I N. rewrite activated_snoc, I. split; [auto|]. intros [X|(now & k & s & E & _)]; [exact X|]. destruct (N _ _ _ E). Qed.

Lemma w_inv c os : exists w outs, w_run c (wcalls os) (w_new c) = Some (w, outs) /\ WInv c os w.
Proof.
  induction os as [|o os IH] using rev_ind.
  - exists (w_new c), []. split; [reflexivity|].
    assert (NA : forall l, false = true <-> activated c [] l) by (intros l; split; [discriminate|intros (? & ? & ? & [] & _)]).
    constructor; cbn; auto.
  - destruct IH as (w & outs & R & [P CL ID CN U S T]).
    unfold wcalls in *. rewrite flat_map_app. cbn [flat_map]. rewrite app_nil_r, w_run_app, R.
    destruct o as [p time a b d|now k s|k|now|i].
    + assert (X : subscribed w \/ ~ subscribed w).
      { unfold subscribed. destruct (em_contents (cn_map (w_conn w))); [right; auto|left; discriminate]. }
      assert (Y : exists w' o', w_run c (wcall_ops (CSend p time a b d)) w = Some (w', o') /\
        w_pend w' = None /\ w_clock w' = (w_clock w + 1)%Z /\ w_user_id w' = w_user_id w /\ w_conn w' = w_conn w /\
        w_udp w' = w_udp w /\ w_shm w' = w_shm w /\ w_tcp w' = w_tcp w).
      { destruct X as [X|X].
        - destruct (send_lemma c w p time a b d P X) as (w' & E & Q). eauto.
        - destruct (refresh_lemma c w p time a b d P X) as (w' & E & Q). eauto. }
      destruct Y as (w' & o' & E & P' & C' & I' & N' & U' & S' & T'). rewrite E.
      exists w', (outs ++ o'). split; [reflexivity|]. constructor.
      * exact P'.
      * rewrite C', CL, sends_snoc. lia.
      * unfold id_after in *. rewrite fold_left_snoc, I'. exact ID.
      * rewrite conn_calls_snoc, app_nil_r, N'. exact CN.
      * rewrite U'. apply act_none; [exact U|discriminate].
      * rewrite S'. apply act_none; [exact S|discriminate].
      * rewrite T'. apply act_none; [exact T|discriminate].
    + destruct (conn_inv sl0 (wc_timeout c) (conn_calls (os ++ [CSub now k s]))) as (cn & RN & _).
      assert (RN' := RN). rewrite conn_calls_snoc in RN. unfold serial in RN, CN. rewrite flat_map_app, micro_run_app, CN in RN. cbn [flat_map] in RN. rewrite app_nil_r in RN.
      cbn [wcall_ops w_run w_step]. unfold w_sub. rewrite RN. eexists _, _. split; [reflexivity|].
      assert (A : forall l (b : bool), l <> tl_none -> (b = true <-> activated c os l) ->
        (b || eqb (determine_layer c (pub_layers c) (sub_layers s) (eqb (wc_host c) (si_host k))) l = true <-> activated c (os ++ [CSub now k s]) l)).
      { intros l b NN I. rewrite activated_snoc, orb_true_iff, I. split; (intros [X|X]; [left; exact X|right]).
        - apply eqb_true in X. exists now, k, s. split; [reflexivity|]. apply determine_lemma in X; assumption.
        - destruct X as (n' & k' & s' & [= <- <- <-] & B). apply determine_lemma in B; [|exact NN]. rewrite B. apply eqb_refl. }
      constructor; cbn [w_pend w_clock w_user_id w_conn w_udp w_shm w_tcp].
      * exact P.
      * rewrite CL, sends_snoc. f_equal. lia.
      * unfold id_after in *. rewrite fold_left_snoc. exact ID.
      * exact RN'.
      * apply A; [discriminate|exact U].
      * apply A; [discriminate|exact S].
      * apply A; [discriminate|exact T].
    + destruct (conn_inv sl0 (wc_timeout c) (conn_calls (os ++ [CUnsub k]))) as (cn & RN & _).
      assert (RN' := RN). rewrite conn_calls_snoc in RN. unfold serial in RN, CN. rewrite flat_map_app, micro_run_app, CN in RN. cbn [flat_map] in RN. rewrite app_nil_r in RN.
      cbn [wcall_ops w_run w_step]. rewrite RN. eexists _, _. split; [reflexivity|].
      constructor; cbn [set_conn w_pend w_clock w_user_id w_conn w_udp w_shm w_tcp].
      * exact P.
      * rewrite CL, sends_snoc. f_equal. lia.
      * unfold id_after in *. rewrite fold_left_snoc. exact ID.
      * exact RN'.
      * apply act_none; [exact U|discriminate].
      * apply act_none; [exact S|discriminate].
      * apply act_none; [exact T|discriminate].
    + destruct (conn_inv sl0 (wc_timeout c) (conn_calls (os ++ [CCheck now]))) as (cn & RN & _).
      assert (RN' := RN). rewrite conn_calls_snoc in RN. unfold serial in RN, CN. rewrite flat_map_app, micro_run_app, CN in RN. cbn [flat_map] in RN. rewrite app_nil_r in RN.
      cbn [wcall_ops w_run w_step]. rewrite RN. eexists _, _. split; [reflexivity|].
      constructor; cbn [set_conn w_pend w_clock w_user_id w_conn w_udp w_shm w_tcp].
      * exact P.
      * rewrite CL, sends_snoc. f_equal. lia.
      * unfold id_after in *. rewrite fold_left_snoc. exact ID.
      * exact RN'.
      * apply act_none; [exact U|discriminate].
      * apply act_none; [exact S|discriminate].
      * apply act_none; [exact T|discriminate].
    + cbn [wcall_ops w_run w_step]. eexists _, _. split; [reflexivity|].
      constructor; cbn [w_pend w_clock w_user_id w_conn w_udp w_shm w_tcp].
      * exact P.
      * rewrite CL, sends_snoc. f_equal. lia.
      * unfold id_after. rewrite fold_left_snoc. reflexivity.
      * rewrite conn_calls_snoc, app_nil_r. exact CN.
      * apply act_none; [exact U|discriminate].
      * apply act_none; [exact S|discriminate].
      * apply act_none; [exact T|discriminate].
Qed.

(** *** Statements. *)
Lemma send_outputs_lemma c os p time a b d :
  exists w outs w', w_run c (wcalls os) (w_new c) = Some (w, outs) /\
    w_clock w = Z.of_nat (sends os) /\
    (subscribed w -> w_run c (wcall_ops (CSend p time a b d)) w =
       Some (w', map (fun l => WTx (same_message c (id_after os) (S (sends os)) p time l)) (layers_of w)
              ++ [WRet (if (w_shm w && a) || (w_udp w && b) || (w_tcp w && d) then length p else 0)])) /\
    (~ subscribed w -> w_run c (wcall_ops (CSend p time a b d)) w = Some (w', [WRet (length p)])) /\
    w_clock w' = Z.of_nat (S (sends os)).
Proof.
  destruct (w_inv c os) as (w & outs & R & [P CL ID CN U S T]).
  assert (X : subscribed w \/ ~ subscribed w).
  { unfold subscribed. destruct (em_contents (cn_map (w_conn w))); [right; auto|left; discriminate]. }
  assert (CL' : (w_clock w + 1)%Z = Z.of_nat (Datatypes.S (sends os))) by lia.
  destruct X as [X|X].
  - destruct (send_lemma c w p time a b d P X) as (w' & E & Q). exists w, outs, w'.
    split; [exact R|]. split; [exact CL|]. split; [|split; [tauto|]].
    + intros _. rewrite E, ID, CL'. reflexivity.
    + rewrite <- CL'. apply Q.
  - destruct (refresh_lemma c w p time a b d P X) as (w' & E & Q). exists w, outs, w'.
    split; [exact R|]. split; [exact CL|]. split; [tauto|split; [auto|]].
    rewrite <- CL'. apply Q.
Qed.
Lemma return_lemma c os p time a b d w outs : w_run c (wcalls os) (w_new c) = Some (w, outs) -> subscribed w ->
  exists w' txs n, w_run c (wcall_ops (CSend p time a b d)) w = Some (w', txs ++ [WRet n]) /\
    (accepted w a b d -> n = length p) /\ (~ accepted w a b d -> n = 0).
Proof.
  intros R X. destruct (w_inv c os) as (w0 & outs0 & R0 & [P _ _ _ _ _ _]). rewrite R in R0. injection R0 as <- _.
  destruct (send_lemma c w p time a b d P X) as (w' & E & Q). rewrite E. eexists w', _, _. split; [reflexivity|]. unfold accepted.
  split.
  - intros [[-> ->]|[[-> ->]|[-> ->]]]; cbn; rewrite ?orb_true_r; reflexivity.
  - intros H. destruct (w_shm w), (w_udp w), (w_tcp w), a, b, d; cbn; try reflexivity; exfalso; apply H; auto 10.
Qed.
Lemma layers_lemma c os w outs : w_run c (wcalls os) (w_new c) = Some (w, outs) ->
  forall l, In l (layers_of w) <-> activated c os l.
Proof.
  intros R l. destruct (w_inv c os) as (w0 & outs0 & R0 & [_ _ _ _ U S T]). rewrite R in R0. injection R0 as <- _.
  unfold layers_of. rewrite !in_app_iff. split.
  - intros [H|[H|H]].
    + destruct (w_shm w); [destruct H as [<-|[]]; tauto|destruct H].
    + destruct (w_udp w); [destruct H as [<-|[]]; tauto|destruct H].
    + destruct (w_tcp w); [destruct H as [<-|[]]; tauto|destruct H].
  - intros A. pose proof A as (now & k & s & _ & (_ & _ & _ & CM & _)).
    destruct CM as [(-> & _)|[(-> & _)|(-> & _)]].
    + right. left. apply U in A. rewrite A. now left.
    + left. apply S in A. rewrite A. now left.
    + right. right. apply T in A. rewrite A. now left.
Qed.
Lemma activated_mono c os os' l : activated c os l -> activated c (os ++ os') l.
Proof. intros (now & k & s & Hin & B). exists now, k, s. rewrite in_app_iff. auto. Qed.

(** *** The hash. *)
Lemma snd_hash_inj h1 a b : (0 <= a < 2 ^ 63)%Z -> (0 <= b < 2 ^ 63)%Z -> snd_hash h1 a = snd_hash h1 b -> a = b.
Proof.
  unfold snd_hash. intros A B E.
  assert (E' : Z.modulo (Z.shiftl a 1) two64 = Z.modulo (Z.shiftl b 1) two64).
  { rewrite <- (Z.lxor_0_l (Z.modulo (Z.shiftl a 1) two64)), <- (Z.lxor_0_l (Z.modulo (Z.shiftl b 1) two64)).
    rewrite <- (Z.lxor_nilpotent h1), !Z.lxor_assoc, E. reflexivity. }
  rewrite !Z.shiftl_mul_pow2 in E' by lia. unfold two64 in E'.
  rewrite !Z.mod_small in E' by lia. lia.
Qed.
Lemma snd_hash_collision h1 h2 : (0 <= h1 < 2 ^ 64)%Z -> (0 <= h2 < 2 ^ 64)%Z -> Z.testbit (Z.lxor h1 h2) 0 = false ->
  exists a b, (0 <= a < 2 ^ 63)%Z /\ (0 <= b < 2 ^ 63)%Z /\ snd_hash h1 a = snd_hash h2 b.
Proof.
  intros H1 H2 T. exists 0%Z, (Z.shiftr (Z.lxor h1 h2) 1).
  assert (LX : (0 <= Z.lxor h1 h2 < 2 ^ 64)%Z).
  { split; [apply Z.lxor_nonneg; lia|].
    destruct (Z.eq_dec (Z.lxor h1 h2) 0) as [->|NZ]; [lia|].
    assert (P : (0 < Z.lxor h1 h2)%Z) by (pose proof (proj2 (Z.lxor_nonneg h1 h2)); lia).
    apply Z.log2_lt_pow2; [exact P|].
    pose proof (Z.log2_lxor h1 h2 ltac:(lia) ltac:(lia)) as L.
    assert (Z.log2 h1 < 64)%Z by (destruct (Z.eq_dec h1 0) as [->|]; [reflexivity|apply Z.log2_lt_pow2; lia]).
    assert (Z.log2 h2 < 64)%Z by (destruct (Z.eq_dec h2 0) as [->|]; [reflexivity|apply Z.log2_lt_pow2; lia]).
    lia. }
  rewrite Z.shiftr_div_pow2 by lia. change (2 ^ 1)%Z with 2%Z.
  split; [lia|]. split.
  { split; [apply Z.div_pos; lia|]. apply Z.div_lt_upper_bound; [lia|]. change (2 * 2 ^ 63)%Z with (2 ^ 64)%Z. lia. }
  unfold snd_hash. rewrite Z.shiftl_0_l, Z.mod_0_l by (unfold two64; lia). rewrite Z.lxor_0_r.
  rewrite Z.shiftl_mul_pow2 by lia. change (2 ^ 1)%Z with 2%Z.
  assert (E : (Z.lxor h1 h2 / 2 * 2 = Z.lxor h1 h2)%Z).
  { rewrite Z.bit0_odd in T. pose proof (Z.div_mod (Z.lxor h1 h2) 2 ltac:(lia)) as D. rewrite Zmod_odd, T in D. lia. }
  rewrite E, Z.mod_small by (unfold two64; lia).
  rewrite (Z.lxor_comm h1 h2), <- Z.lxor_assoc, Z.lxor_nilpotent, Z.lxor_0_l. reflexivity.
Qed.

(** *** The race. *)
Lemma zero_copy_race_lemma :
  ~ (forall c os w outs, w_run c os (w_new c) = Some (w, outs) -> forall t, In (WTx t) outs -> exists b, tx_bytes t = Some b /\ length b = tx_len t).
Proof.
  intros X.
  pose (c := WCfg [1%Z] true true true [tl_shm] [tl_udp] true 5%Z 10%Z).
  pose (os := [OSub 0 (SubInfo [1%Z] 3 [7%Z]) (SubLayers true true true); OBegin [1; 2; 3]%Z 0; ONext true;
               OSub 0 (SubInfo [2%Z] 4 [8%Z]) (SubLayers true true true); ONext true; ONext true]).
  destruct (w_run c os (w_new c)) as [[w outs]|] eqn:R; [|vm_compute in R; discriminate].
  specialize (X c os w outs R (Tx tl_udp 0 1 0 (snd_hash 5 1) 3 None)).
  vm_compute in R. injection R as _ <-. destruct X as (b & H & _); [right; left; reflexivity|discriminate].
Qed.

Lemma filter_length_le {A} (f : A -> bool) l : length (filter f l) <= length l.
Proof. induction l as [|x l IH]; cbn; [lia|]. destruct (f x); cbn; lia. Qed.

Lemma connections_lemma c os : exists w outs, w_run c (wcalls os) (w_new c) = Some (w, outs) /\
  let (l, e) := w_connections c w in
  exists subs : list subinfo, NoDup subs /\ (forall k, In k subs <-> em_find k (cn_map (w_conn w)) <> None) /\
    l = length (filter (fun k => eqb (si_host k) (wc_host c)) subs) /\
    e = length (filter (fun k => negb (eqb (si_host k) (wc_host c))) subs).
Proof.
  destruct (w_inv c os) as (w & outs & R & [_ _ _ CN _ _ _]). exists w, outs. split; [exact R|]. unfold w_connections.
  destruct (conn_inv sl0 (wc_timeout c) (conn_calls os)) as (s & RS & JJ). rewrite CN in RS. injection RS as <-.
  pose proof (j_inv _ _ _ _ JJ) as IN.
  exists (map fst (em_contents (cn_map (w_conn w)))). split; [apply contents_nodup, IN|]. split.
  - intros k. rewrite in_map_iff. split.
    + intros ((k' & v) & <- & Hin). apply contents_find in Hin; [|exact IN]. cbn. congruence.
    + intros H. destruct (em_find k (cn_map (w_conn w))) as [v|] eqn:F; [|congruence].
      apply contents_find in F; [|exact IN]. exists (k, v). auto.
  - induction (em_contents (cn_map (w_conn w))) as [|[k v] l [IH1 IH2]]; [auto|]. cbn [filter map fst length].
    destruct (eqb (si_host k) (wc_host c)); cbn [negb length].
    + split; [now rewrite IH1|]. rewrite <- IH2. reflexivity.
    + split; [exact IH1|]. rewrite <- IH2. pose proof (filter_length_le (fun p => eqb (si_host (fst p)) (wc_host c)) l). lia.
Qed.

Lemma layers_stay_lemma c os os' w outs w' outs' :
  w_run c (wcalls os) (w_new c) = Some (w, outs) -> w_run c (wcalls (os ++ os')) (w_new c) = Some (w', outs') ->
  forall l, In l (layers_of w) -> In l (layers_of w').
Proof.
  intros R R' l H. apply (layers_lemma _ _ _ _ R') , activated_mono, (layers_lemma _ _ _ _ R), H.
Qed.
Lemma own_bytes_lemma c os p time a b d w outs w' outs' t :
  w_run c (wcalls os) (w_new c) = Some (w, outs) -> w_run c (wcall_ops (CSend p time a b d)) w = Some (w', outs') ->
  In (WTx t) outs' -> tx_bytes t = Some p.
Proof.
  intros R RS Hin. destruct (w_inv c os) as (w0 & outs0 & R0 & [P _ _ _ _ _ _]). rewrite R in R0. injection R0 as <- _.
  destruct (em_contents (cn_map (w_conn w))) eqn:E.
  - destruct (refresh_lemma c w p time a b d P) as (w1 & E1 & _); [unfold subscribed; congruence|].
    rewrite RS in E1. injection E1 as -> ->. destruct Hin as [Hin|[]]. discriminate.
  - destruct (send_lemma c w p time a b d P) as (w1 & E1 & _); [unfold subscribed; congruence|].
    rewrite RS in E1. injection E1 as -> ->. apply in_app_iff in Hin. destruct Hin as [Hin|[Hin|[]]]; [|discriminate].
    apply in_map_iff in Hin. destruct Hin as (ly & [= <-] & _). reflexivity.
Qed.

Definition pend_ok (os : list wrop) (w : writer) : Prop :=
  match w_pend w with
  | None => True
  | Some pe => pe_allow pe = false /\ w_buf w = pe_payload pe /\ exists time, In (OBegin (pe_payload pe) time) os
  end.
Lemma no_zero_copy_lemma c os w outs : wc_zero_copy c = false -> w_run c os (w_new c) = Some (w, outs) ->
  forall t, In (WTx t) outs -> exists b, tx_bytes t = Some b /\ length b = tx_len t /\ exists time, In (OBegin b time) os.
Proof.
  intros Z. 
  cut (w_run c os (w_new c) = Some (w, outs) -> pend_ok os w /\
       forall t, In (WTx t) outs -> exists b, tx_bytes t = Some b /\ length b = tx_len t /\ exists time, In (OBegin b time) os).
  { intros H R. apply H, R. }
  revert w outs. induction os as [|o os IH] using rev_ind; intros w outs R.
  - cbn in R. injection R as <- <-. split; [exact I|intros t []].
  - rewrite w_run_app in R. destruct (w_run c os (w_new c)) as [[w1 o1]|]; [|discriminate].
    destruct (IH w1 o1 eq_refl) as [PO TX]. clear IH.
    cbn [w_run] in R. destruct (w_step c o w1) as [[w2 o2]|] eqn:S; [|discriminate]. injection R as <- <-. rewrite app_nil_r.
    assert (TX' : forall t, In (WTx t) o1 -> exists b, tx_bytes t = Some b /\ length b = tx_len t /\ exists time, In (OBegin b time) (os ++ [o])).
    { intros t Ht. destruct (TX t Ht) as (b & A & B & tm & D). exists b. split; [exact A|]. split; [exact B|]. exists tm. rewrite in_app_iff. auto. }
    assert (PO' : pend_ok (os ++ [o]) w1).
    { unfold pend_ok in *. destruct (w_pend w1); [|exact I]. destruct PO as (A & B & tm & D). split; [exact A|]. split; [exact B|]. exists tm. rewrite in_app_iff. auto. }
    assert (KEEP : o2 = [] -> w_pend w2 = w_pend w1 -> w_buf w2 = w_buf w1 -> pend_ok (os ++ [o]) w2 /\
       forall t, In (WTx t) (o1 ++ o2) -> exists b, tx_bytes t = Some b /\ length b = tx_len t /\ exists time, In (OBegin b time) (os ++ [o])).
    { intros -> E1 E2. rewrite app_nil_r. split; [|exact TX']. unfold pend_ok. rewrite E1, E2. exact PO'. }
    destruct o as [p time|ok|now k s|k|now|i]; cbn [w_step] in S.
    + unfold w_begin in S. destruct (w_pend w1) eqn:P.
      * injection S as <- <-. apply KEEP; auto.
      * destruct (em_contents (cn_map (w_conn w1))).
        -- injection S as <- <-. split; [exact I|]. intros t Ht. apply in_app_iff in Ht. destruct Ht as [Ht|[Ht|[]]]; [auto|discriminate].
        -- rewrite Z in S. cbn in S. injection S as <- <-. split; [|intros t Ht; rewrite app_nil_r in Ht; auto].
           cbn. split; [reflexivity|]. split; [reflexivity|]. exists time. rewrite in_app_iff. cbn. auto.
    + unfold w_next in S. unfold pend_ok in PO'. destruct (w_pend w1) as [pe|] eqn:P.
      2:{ injection S as <- <-. apply KEEP; auto. }
      destruct PO' as (A & B & D).
      assert (RB : read_buf (length (pe_payload pe)) (w_buf w1) = Some (pe_payload pe)) by (rewrite B; apply firstn_full).
      rewrite A, RB, B in S.
      destruct (pe_stage pe) as [|[|n]] eqn:ST; injection S as <- <-; (split; [cbn; auto|]);
        intros t Ht; rewrite !in_app_iff in Ht; (destruct Ht as [Ht|Ht]; [auto|]);
        [destruct (w_shm w1)|destruct (w_udp w1)|destruct Ht as [Ht|[Ht|[]]]; [destruct (w_tcp w1)|discriminate]];
        try destruct Ht; try (destruct H as []; fail);
        try (match goal with H : WTx _ = WTx _ |- _ => injection H as <- end; cbn; eexists; (split; [reflexivity|]); (split; [reflexivity|]); exact D);
        try match goal with H : In _ [] |- _ => destruct H end.
    + unfold w_sub in S. destruct (micro_run _ _ _); [|discriminate]. injection S as <- <-. apply KEEP; auto.
    + destruct (micro_run _ _ _); [|discriminate]. injection S as <- <-. apply KEEP; auto.
    + destruct (micro_run _ _ _); [|discriminate]. injection S as <- <-. apply KEEP; auto.
    + injection S as <- <-. apply KEEP; auto.
Qed.

Lemma writer_events_lemma c os : exists w outs, w_run c (wcalls os) (w_new c) = Some (w, outs) /\
  alternating (signals (cn_events (w_conn w))) /\
  cn_flag (w_conn w) = Nat.odd (length (signals (cn_events (w_conn w)))) /\
  updates (cn_events (w_conn w)) = announced (conn_calls os).
Proof.
  destruct (w_inv c os) as (w & outs & R & [_ _ _ CN _ _ _]). exists w, outs. split; [exact R|].
  destruct (events_lemma sl0 (wc_timeout c) (conn_calls os)) as (s & RS & _ & Q). rewrite CN in RS. injection RS as <-. exact Q.
Qed.
Lemma writer_connected_lemma c t0 os now : times_from t0 (conn_calls os ++ [WCheck now]) ->
  exists w outs, w_run c (wcalls (os ++ [CCheck now])) (w_new c) = Some (w, outs) /\
    (cn_flag (w_conn w) = true <-> exists k, registered (wc_timeout c) now (conn_calls os) k).
Proof.
  intros TF. destruct (w_inv c (os ++ [CCheck now])) as (w & outs & R & [_ _ _ CN _ _ _]). exists w, outs. split; [exact R|].
  rewrite conn_calls_snoc in CN.
  destruct (connected_lemma sl0 t0 (wc_timeout c) (conn_calls os) now TF) as (s & RS & Q). rewrite CN in RS. injection RS as <-. exact Q.
Qed.
Lemma writer_overlap_refuted_lemma :
  ~ (forall (timeout : Z) (ms : list (micro subinfo sublayers)) s,
       micro_run sl0 ms (conn_new timeout) = Some s -> alternating (signals (cn_events s))).
Proof.
  intros X. specialize (X 10%Z [MStart (SubInfo [] 1 []) sl0; MStep 0; MCheck 0; MCheckStep; MCheckStep; MStep 0]).
  cbn in X. specialize (X _ eq_refl 0 false eq_refl). discriminate.
Qed.
