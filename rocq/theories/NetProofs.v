From Verif Require Import Base Sample ExpMapModel ExpMapSpec ExpMapProofs ConnModel ConnSpec ConnProofs WrModel RegModel PbModel PbSpec SerModel SerSpec SerProofs UdpModel UdpSpec UdpProofs GateModel NetModel NetSpec.

(** ** Calls of one object *)
Notation wcall := (wop subinfo nval).
Definition story (T : Z) (os : list wcall) (c : conn subinfo nval) : Prop := micro_run nval0 (serial os) (conn_new T) = Some c.
Lemma story_snoc T os o c : story T os c -> exists c', micro_run nval0 (whole o) c = Some c' /\ story T (os ++ [o]) c'.
Proof.
  unfold story. intros E. destruct (conn_inv nval0 T (os ++ [o])) as (c' & R & _). exists c'.
  split; [|exact R]. unfold serial in *. rewrite flat_map_app, micro_run_app, E in R. cbn [flat_map] in R. rewrite app_nil_r in R. exact R.
Qed.
Definition call (o : wcall) (e : nend) : nend := match ne_call o e with Some e' => e' | None => e end.
Lemma call_spec T os o e : story T os (ne_conn e) -> ne_call o e = Some (call o e) /\ story T (os ++ [o]) (ne_conn (call o e)) /\
  ne_name (call o e) = ne_name e /\ ne_id (call o e) = ne_id e /\ ne_rest (call o e) = ne_rest e.
Proof.
  intros St. destruct (story_snoc T os o _ St) as (c' & R & St'). unfold call, ne_call. rewrite R. cbn. auto.
Qed.

Definition well (T : Z) (e : nend) : Prop := exists os, story T os (ne_conn e).
Record hgood (T : Z) (h : half) : Prop := {
  hg_nd : NoDup (keys (hf_ends h));
  hg_gate : hf_gate h = Gate true (map (fun xe => (ne_name (snd xe), fst xe)) (hf_ends h));
  hg_story : forall x e, In (x, e) (hf_ends h) -> well T e }.
(** Some of the objects get a call. *)
Definition touch (L : nat -> bool) (o : wcall) (h : half) : half :=
  Half (hf_gate h) (map (fun xe => (fst xe, if L (fst xe) then call o (snd xe) else snd xe)) (hf_ends h)).
Lemma keys_touch L o h : keys (hf_ends (touch L o h)) = keys (hf_ends h).
Proof. unfold touch, keys. cbn. rewrite map_map. reflexivity. Qed.
Lemma aget_map {A B} (f : nat -> A -> B) x (l : list (nat * A)) :
  aget x (map (fun xe => (fst xe, f (fst xe) (snd xe))) l) = match aget x l with Some e => Some (f x e) | None => None end.
Proof.
  induction l as [|[y e] l IH]; cbn; [reflexivity|]. destruct (eqb x y) eqn:E; [|exact IH].
  apply eqb_true in E. subst y. reflexivity.
Qed.
Lemma aget_touch L o h x : aget x (hf_ends (touch L o h)) = match aget x (hf_ends h) with Some e => Some (if L x then call o e else e) | None => None end.
Proof. unfold touch. cbn [hf_ends]. exact (aget_map (fun x e => if L x then call o e else e) x (hf_ends h)). Qed.
Lemma touch_good T L o h : hgood T h -> hgood T (touch L o h).
Proof.
  intros [ND GA ST]. constructor.
  - rewrite keys_touch. exact ND.
  - unfold touch. cbn [hf_gate hf_ends]. rewrite GA, map_map. cbn. f_equal. apply map_ext_in. intros [x e] In1. cbn.
    destruct (L x); [|reflexivity]. destruct (ST x e In1) as (os & St). destruct (call_spec T os o e St) as (_ & _ & N & _). rewrite N. reflexivity.
  - intros x e In1. unfold touch in In1. cbn in In1. apply in_map_iff in In1. destruct In1 as ([y d] & E & In1). cbn in E. injection E as <- <-.
    destruct (ST y d In1) as (os & St). destruct (L y); [|exists os; exact St]. exists (os ++ [o]). apply (call_spec T os o d St).
Qed.
Lemma touch_none o h : touch (fun _ => false) o h = h.
Proof. unfold touch. destruct h as [g l]. cbn. f_equal. rewrite <- (map_id l) at 2. apply map_ext. intros []; reflexivity. Qed.
Lemma touch_ext L L' o h : (forall x, L x = L' x) -> touch L o h = touch L' o h.
Proof. intros E. unfold touch. f_equal. apply map_ext. intros [x e]. cbn. rewrite E. reflexivity. Qed.

Lemma aset_map (f : nend -> nend) x e (l : list (nat * nend)) : NoDup (keys l) -> aget x l = Some e ->
  aset x (f e) l = map (fun xe => (fst xe, if eqb (fst xe) x then f (snd xe) else snd xe)) l.
Proof.
  induction l as [|[y d] l IH]; cbn; [discriminate|]. intros ND G. inversion ND as [|a b NI ND']; subst.
  destruct (eqb x y) eqn:E.
  - apply eqb_true in E. subst y. injection G as ->. rewrite eqb_refl. f_equal.
    rewrite <- (map_id l) at 1. apply map_ext_in. intros [z d] In1. cbn. rewrite neq_eqb; [reflexivity|].
    intros ->. apply NI. change x with (fst (x, d)). apply in_map, In1.
  - rewrite (eqb_sym y x), E. f_equal. apply IH; assumption.
Qed.
Lemma hf_call_spec T x o h : hgood T h -> hf_call x o h = Some (touch (fun y => eqb y x) o h).
Proof.
  intros [ND GA ST]. unfold hf_call. destruct (aget x (hf_ends h)) as [e|] eqn:G.
  - destruct (ST x e (aget_in _ _ _ G)) as (os & St). destruct (call_spec T os o e St) as (E & _). rewrite E.
    unfold touch. f_equal. f_equal. apply (aset_map (call o)); assumption.
  - f_equal. unfold touch. destruct h as [g l]. cbn in *. f_equal. rewrite <- (map_id l) at 1. apply map_ext_in.
    intros [y d] In1. cbn. rewrite neq_eqb; [reflexivity|]. intros ->. apply aget_none in G. apply G.
    change x with (fst (x, d)). apply in_map, In1.
Qed.

(** ** A process *)
Record pgood (q : nproc) : Prop := {
  pg_rx : np_rx q = Listening;
  pg_half : forall sd, hgood (nc_timeout (np_cfg q)) (np_half sd q) }.
Definition touch_p (sd : side) (L : nat -> bool) (o : wcall) (q : nproc) : nproc := np_set sd (touch L o (np_half sd q)) q.
Lemma half_set sd sd' h q : np_half sd (np_set sd' h q) = match sd, sd' with PubSide, PubSide | SubSide, SubSide => h | _, _ => np_half sd q end.
Proof. destruct sd, sd'; reflexivity. Qed.
Lemma touch_p_good sd L o q : pgood q -> pgood (touch_p sd L o q).
Proof.
  intros [RX HG]. unfold touch_p. constructor.
  - destruct sd; exact RX.
  - intros sd'. pose proof (HG sd') as G'. pose proof (HG sd) as G.
    destruct sd, sd'; cbn in *; try exact G'; apply touch_good; exact G.
Qed.
Lemma set_half sd q : np_set sd (np_half sd q) q = q.
Proof. destruct sd, q; reflexivity. Qed.

Definition mem (l : list nat) (x : nat) : bool := existsb (Nat.eqb x) l.
Lemma mem_in l x : mem l x = true <-> In x l.
Proof.
  unfold mem. rewrite existsb_exists. split.
  - intros (y & I1 & E). apply Nat.eqb_eq in E. subst. exact I1.
  - intros I1. exists x. rewrite Nat.eqb_refl. auto.
Qed.
(** Two rounds of calls of the same kind to different objects. *)
Lemma touch_twice (L1 L2 : nat -> bool) o h : (forall x, L1 x = true -> L2 x = false) -> touch L2 o (touch L1 o h) = touch (fun x => (L1 x || L2 x)%bool) o h.
Proof.
  intros D. unfold touch. cbn [hf_gate hf_ends]. f_equal. rewrite map_map. apply map_ext. intros [x e]. cbn.
  destruct (L1 x) eqn:E1; cbn; [rewrite (D x E1); reflexivity|reflexivity].
Qed.
Lemma np_calls_app now a b : forall q, np_calls now (a ++ b) q = match np_calls now a q with Some q' => np_calls now b q' | None => None end.
Proof. induction a as [|g a IH]; intros q; cbn; [reflexivity|]. destruct (np_call now q g); auto. Qed.

Lemma calls_same now sd (f : nat -> list gcall) o L : (forall x q, pgood q -> np_calls now (f x) q = Some (touch_p sd (fun y => eqb y x) o q)) ->
  NoDup L -> forall q, pgood q -> np_calls now (flat_map f L) q = Some (touch_p sd (mem L) o q).
Proof.
  intros F ND. induction L as [|x L IH]; intros q PG; cbn [flat_map].
  - cbn. unfold touch_p. rewrite (touch_ext (mem []) (fun _ => false)) by reflexivity. rewrite touch_none, set_half. reflexivity.
  - inversion ND as [|a b NI ND']; subst. rewrite np_calls_app, F by exact PG. rewrite IH by (auto using touch_p_good). f_equal.
    unfold touch_p. rewrite half_set.
    assert (D : forall y, eqb y x = true -> mem L y = false).
    { intros y E. apply eqb_true in E. subst y. destruct (mem L x) eqn:M; [|reflexivity]. apply mem_in in M. contradiction. }
    assert (X : touch (mem L) o (touch (fun y => eqb y x) o (np_half sd q)) = touch (mem (x :: L)) o (np_half sd q)).
    { rewrite touch_twice by exact D. apply touch_ext. intros y. cbn. f_equal. unfold eqb. destruct (eq_dec y x) as [->|N].
      - symmetry. apply Nat.eqb_refl.
      - symmetry. apply Nat.eqb_neq. exact N. }
    destruct sd; cbn [np_half] in *; rewrite X; destruct q; reflexivity.
Qed.

(** What a sample means for an object of the process. *)
Definition effect (c : ncfg) (sd : side) (now : Z) (m : sample) : option wcall :=
  if (ap_accept (ap_new (nc_network c) (nc_loopback c) (nc_group c) (nc_pid c)) m && negb (is_nil (tp_tname (sm_topic m))))%bool then
    match sd, sm_cmd m with
    | PubSide, bct_reg_subscriber => Some (WApply now (info_of m) (tp_dtype (sm_topic m), layers_of m))
    | PubSide, bct_unreg_subscriber => Some (WRemove (info_of m))
    | SubSide, bct_reg_publisher => if confirmed (nc_host c) m then Some (WApply now (info_of m) (tp_dtype (sm_topic m), layers_of m)) else None
    | SubSide, bct_unreg_publisher => Some (WRemove (info_of m))
    | _, _ => None
    end
  else None.
Definition reacts (n : text) (h : half) (x : nat) : bool := match aget x (hf_ends h) with Some e => eqb (ne_name e) n | None => false end.
Lemma range_spec T h n x : hgood T h -> mem (gt_range n (hf_gate h)) x = reacts n h x.
Proof.
  intros [ND GA _]. unfold gt_range, reacts. rewrite GA. cbn [gt_map]. destruct (mem _ x) eqn:M.
  - apply mem_in in M. apply in_map_iff in M. destruct M as ([n' y] & E & I1). cbn in E. subst y. apply filter_In in I1. destruct I1 as [I1 E1].
    apply in_map_iff in I1. destruct I1 as ([y e] & E & I1). cbn in E, E1. injection E as <- <-. rewrite (in_aget _ _ _ ND I1). symmetry. exact E1.
  - destruct (aget x (hf_ends h)) as [e|] eqn:G; [|reflexivity]. destruct (eqb (ne_name e) n) eqn:E; [|reflexivity].
    exfalso. apply aget_in in G. assert (X : mem (map snd (filter (fun e0 => eqb (fst e0) n) (map (fun xe => (ne_name (snd xe), fst xe)) (hf_ends h)))) x = true); [|congruence].
    apply mem_in. apply in_map_iff. exists (ne_name e, x). split; [reflexivity|]. apply filter_In. split; [|exact E].
    apply in_map_iff. exists (x, e). auto.
Qed.
Lemma nodup_range T h n : hgood T h -> NoDup (gt_range n (hf_gate h)).
Proof.
  intros [ND GA _]. unfold gt_range. rewrite GA. cbn [gt_map].
  assert (X : forall l : list (nat * nend), NoDup (keys l) -> NoDup (map snd (filter (fun e => eqb (fst e) n) (map (fun xe => (ne_name (snd xe), fst xe)) l)))); [|apply X, ND].
  induction l as [|[x e] l IH]; cbn; [constructor|]. intros N. inversion N as [|a b NI ND']; subst.
  destruct (eqb (ne_name e) n); cbn; [|apply IH, ND']. constructor; [|apply IH, ND'].
  intros I1. apply NI. apply in_map_iff in I1. destruct I1 as ([n' y] & E & I1). cbn in E. subst y. apply filter_In in I1. destruct I1 as [I1 _].
  apply in_map_iff in I1. destruct I1 as ([y d] & E & I1). injection E as _ E. cbn in E. subst y. change x with (fst (x, d)). apply in_map, I1.
Qed.
Lemma gate_on T h : hgood T h -> gt_on (hf_gate h) = true.
Proof. intros [_ GA _]. rewrite GA. reflexivity. Qed.

Definition sample_effect (now : Z) (m : sample) (q : nproc) : nproc :=
  let n := tp_tname (sm_topic m) in
  let f sd := match effect (np_cfg q) sd now m with Some o => touch (reacts n (np_half sd q)) o (np_half sd q) | None => np_half sd q end in
  NProc (np_cfg q) (np_rx q) (f PubSide) (f SubSide) (np_applied q).

Lemma single_pub now q x o g : pgood q -> np_call now q g = match hf_call x o (np_pub q) with Some h => Some (np_set PubSide h q) | None => None end ->
  np_calls now [g] q = Some (touch_p PubSide (fun y => eqb y x) o q).
Proof. intros PG E. cbn [np_calls]. rewrite E. pose proof (hf_call_spec _ x o _ (pg_half _ PG PubSide)) as H. cbn [np_half] in H. rewrite H. reflexivity. Qed.
Lemma single_sub now q x o g : pgood q -> np_call now q g = match hf_call x o (np_sub q) with Some h => Some (np_set SubSide h q) | None => None end ->
  np_calls now [g] q = Some (touch_p SubSide (fun y => eqb y x) o q).
Proof. intros PG E. cbn [np_calls]. rewrite E. pose proof (hf_call_spec _ x o _ (pg_half _ PG SubSide)) as H. cbn [np_half] in H. rewrite H. reflexivity. Qed.
Lemma map_flat {A B} (f : A -> B) l : map f l = flat_map (fun x => [f x]) l.
Proof. induction l; cbn; congruence. Qed.
Lemma skip_par now r i ys q : np_calls now (map GS (map (SPar r i) ys)) q = Some q.
Proof. induction ys as [|y ys IH]; cbn; [reflexivity|exact IH]. Qed.

Lemma gates_spec now m q : pgood q ->
  np_calls now (arrive (np_applier q) (nc_host (np_cfg q)) m (hf_gate (np_pub q)) (hf_gate (np_sub q))) q = Some (sample_effect now m q).
Proof.
  intros PG. pose proof (pg_half _ PG PubSide) as GP0. pose proof (pg_half _ PG SubSide) as GS0. cbn in GP0, GS0.
  assert (U : NProc (np_cfg q) (np_rx q) (np_pub q) (np_sub q) (np_applied q) = q) by (destruct q; reflexivity).
  unfold arrive, np_applier, sample_effect, ap_apply. unfold effect.
  destruct (ap_accept (ap_new (nc_network (np_cfg q)) (nc_loopback (np_cfg q)) (nc_group (np_cfg q)) (nc_pid (np_cfg q))) m) eqn:AC; cbn [negb fst andb].
  2: { cbn [np_calls]. rewrite <- U at 1. reflexivity. }
  unfold gates, gates_apply.
  assert (NP : forall P Q : nproc, P = Q -> Some P = Some Q) by (intros; congruence).
  destruct (sm_cmd m) eqn:CM; cbn [np_calls np_half]; try (destruct (negb (is_nil (tp_tname (sm_topic m)))); rewrite <- U at 1; reflexivity).
  - unfold sg_pub. rewrite (gate_on _ _ GS0). cbn [negb orb]. destruct (is_nil (tp_tname (sm_topic m))); cbn [negb map np_calls]; [rewrite <- U at 1; reflexivity|].
    set (n := tp_tname (sm_topic m)). set (R := gt_range n (hf_gate (np_sub q))).
    assert (X : map GS (flat_map (sg_pub1 (nc_host (np_cfg q)) m) R) = flat_map (fun r => map GS (sg_pub1 (nc_host (np_cfg q)) m r)) R).
    { clear. induction R as [|r R IH]; cbn; [reflexivity|]. rewrite map_app, IH. reflexivity. }
    rewrite X. clear X. unfold sg_pub1. destruct (confirmed (nc_host (np_cfg q)) m).
    + rewrite (calls_same now SubSide _ (WApply now (info_of m) (tp_dtype (sm_topic m), layers_of m)) R).
      * apply NP. unfold touch_p. cbn [np_set np_half]. f_equal. apply touch_ext. intros x. apply (range_spec _ _ _ _ GS0).
      * intros x q' PG'. rewrite map_app, np_calls_app, skip_par. cbn [map]. apply single_sub; [exact PG'|reflexivity].
      * apply (nodup_range _ _ _ GS0).
      * exact PG.
    + rewrite U. clearbody R. clear. induction R as [|r R IH]; cbn [flat_map]; [reflexivity|].
      rewrite np_calls_app, app_nil_r, skip_par. apply IH.
  - unfold pg_sub. rewrite (gate_on _ _ GP0). cbn [negb orb]. destruct (is_nil (tp_tname (sm_topic m))); cbn [negb map np_calls]; [rewrite <- U at 1; reflexivity|].
    rewrite map_map, map_flat.
    rewrite (calls_same now PubSide _ (WApply now (info_of m) (tp_dtype (sm_topic m), layers_of m))).
    + apply NP. unfold touch_p. cbn [np_set np_half]. f_equal. apply touch_ext. intros x. apply (range_spec _ _ _ _ GP0).
    + intros x q' PG'. apply single_pub; [exact PG'|reflexivity].
    + apply (nodup_range _ _ _ GP0).
    + exact PG.
  - unfold sg_unpub. rewrite (gate_on _ _ GS0). cbn [negb orb]. destruct (is_nil (tp_tname (sm_topic m))); cbn [negb map np_calls]; [rewrite <- U at 1; reflexivity|].
    rewrite map_map, map_flat.
    rewrite (calls_same now SubSide _ (WRemove (info_of m))).
    + apply NP. unfold touch_p. cbn [np_set np_half]. f_equal. apply touch_ext. intros x. apply (range_spec _ _ _ _ GS0).
    + intros x q' PG'. apply single_sub; [exact PG'|reflexivity].
    + apply (nodup_range _ _ _ GS0).
    + exact PG.
  - unfold pg_unsub. rewrite (gate_on _ _ GP0). cbn [negb orb]. destruct (is_nil (tp_tname (sm_topic m))); cbn [negb map np_calls]; [rewrite <- U at 1; reflexivity|].
    rewrite map_map, map_flat.
    rewrite (calls_same now PubSide _ (WRemove (info_of m))).
    + apply NP. unfold touch_p. cbn [np_set np_half]. f_equal. apply touch_ext. intros x. apply (range_spec _ _ _ _ GP0).
    + intros x q' PG'. apply single_pub; [exact PG'|reflexivity].
    + apply (nodup_range _ _ _ GP0).
    + exact PG.
Qed.

Lemma reg_receive bs : receive (datagram reg_sample bs) = RxSample reg_sample bs.
Proof.
  apply round_trip; [|vm_compute; reflexivity]. unfold no_zero. intros I1. vm_compute in I1. repeat (destruct I1 as [I1|I1]; [discriminate|]). exact I1.
Qed.
Definition datagram_effect (now : Z) (m : sample) (q : nproc) : nproc :=
  match de_sample (ser_sample m) with Ok m' => sample_effect now m' q | _ => q end.
Lemma datagram_spec now m q : pgood q -> np_datagram now (datagram reg_sample (ser_sample m)) q = Some (datagram_effect now m q).
Proof.
  intros PG. unfold np_datagram, rx_step. rewrite (pg_rx _ PG), reg_receive. cbv iota beta.
  assert (U : NProc (np_cfg q) Listening (np_pub q) (np_sub q) (np_applied q) = q) by (rewrite <- (pg_rx _ PG); destruct q; reflexivity).
  rewrite U. unfold np_sample, datagram_effect. destruct (de_sample (ser_sample m)) as [m'| |] eqn:D.
  - apply gates_spec, PG.
  - reflexivity.
  - exfalso. exact (deserialize_safe d_sample _ _ _ D).
Qed.
Lemma effect_good now m q : pgood q -> pgood (sample_effect now m q).
Proof.
  intros PG. constructor.
  - exact (pg_rx _ PG).
  - intros sd. pose proof (pg_half _ PG sd) as G. destruct sd; cbn [np_half sample_effect np_pub np_sub np_cfg] in *;
      [destruct (effect (np_cfg q) PubSide now m)|destruct (effect (np_cfg q) SubSide now m)]; try exact G; apply touch_good; exact G.
Qed.
Lemma datagram_good now m q : pgood q -> pgood (datagram_effect now m q).
Proof. intros PG. unfold datagram_effect. destruct (de_sample (ser_sample m)); try exact PG. apply effect_good, PG. Qed.

(** Collecting. *)
Definition checked (now : Z) (h : half) : half := touch (fun _ => true) (WCheck now) h.
Definition samples_of (c : ncfg) (sd : side) (h : half) : list sample := map (fun xe => n_reg c sd (snd xe)) (hf_ends h).
Lemma collect_part T c sd now : forall L h, NoDup L -> hgood T h ->
  hf_collect c sd now L h = Some (touch (mem L) (WCheck now) h,
    flat_map (fun x => match aget x (hf_ends h) with Some e => [n_reg c sd (call (WCheck now) e)] | None => [] end) L).
Proof.
  induction L as [|x L IH]; intros h ND G; cbn [hf_collect flat_map].
  - rewrite (touch_ext (mem []) (fun _ => false)) by reflexivity. rewrite touch_none. reflexivity.
  - inversion ND as [|a b NI ND']; subst. rewrite (hf_call_spec T) by exact G. rewrite IH by (auto using touch_good).
    f_equal. f_equal.
    + rewrite touch_twice.
      * apply touch_ext. intros y. cbn. f_equal. unfold eqb. destruct (eq_dec y x) as [->|N]; symmetry; [apply Nat.eqb_refl|apply Nat.eqb_neq; exact N].
      * intros y E. apply eqb_true in E. subst y. destruct (mem L x) eqn:M; [|reflexivity]. apply mem_in in M. contradiction.
    + rewrite aget_touch, eqb_refl.
      assert (X : flat_map (fun x0 => match aget x0 (hf_ends (touch (fun y => eqb y x) (WCheck now) h)) with Some e => [n_reg c sd (call (WCheck now) e)] | None => [] end) L =
                  flat_map (fun x0 => match aget x0 (hf_ends h) with Some e => [n_reg c sd (call (WCheck now) e)] | None => [] end) L).
      { clear -NI. induction L as [|y L IH]; cbn [flat_map]; [reflexivity|]. rewrite IH by (intros I1; apply NI; right; exact I1).
        f_equal. rewrite aget_touch. rewrite (neq_eqb y x) by (intros ->; apply NI; left; reflexivity). destruct (aget y (hf_ends h)); reflexivity. }
      rewrite X. destruct (aget x (hf_ends h)); reflexivity.
Qed.
Lemma collect_spec T c sd now h : hgood T h ->
  hf_collect c sd now (gt_all (hf_gate h)) h = Some (checked now h, samples_of c sd (checked now h)).
Proof.
  intros G. pose proof G as [ND GA ST]. rewrite GA. unfold gt_all. cbn [gt_on gt_map]. rewrite map_map. cbn [snd].
  change (map (fun x : nat * nend => fst x) (hf_ends h)) with (keys (hf_ends h)). rewrite (collect_part T) by assumption.
  f_equal. f_equal.
  - unfold checked, touch. f_equal. apply map_ext_in. intros [x e] I1. cbn.
    assert (X : mem (keys (hf_ends h)) x = true) by (apply mem_in; change x with (fst (x, e)); apply in_map, I1). rewrite X. reflexivity.
  - unfold samples_of, checked, touch, keys. cbn [hf_ends]. rewrite map_map. cbn [snd].
    rewrite flat_map_concat_map, map_map.
    assert (X : map (fun x : nat * nend => match aget (fst x) (hf_ends h) with Some e => [n_reg c sd (call (WCheck now) e)] | None => [] end) (hf_ends h)
              = map (fun x => [n_reg c sd (call (WCheck now) (snd x))]) (hf_ends h)).
    { apply map_ext_in. intros [x e] I1. cbn [fst snd]. rewrite (in_aget _ _ _ ND I1). reflexivity. }
    rewrite X. clear. induction (hf_ends h); cbn; congruence.
Qed.

(** ** Steps of the network *)
Definition good (s : net) : Prop := forall p q, aget p (nt_procs s) = Some q -> pgood q.
Definition at_proc (p : nat) (s : net) (f : nproc -> nproc * list sample) : net :=
  match aget p (nt_procs s) with
  | None => s
  | Some q => Net (aset p (fst (f q)) (nt_procs s)) (nt_sent s ++ snd (f q))
  end.
Definition create_p (sd : side) (x : nat) (name id : text) (r : topic) (q : nproc) : nproc :=
  match aget x (hf_ends (np_half sd q)) with
  | Some _ => q
  | None => np_set sd (Half (Gate true (gt_map (hf_gate (np_half sd q)) ++ [(name, x)]))
                        (aset x (NEnd name id r (conn_new (nc_timeout (np_cfg q)))) (hf_ends (np_half sd q)))) q
  end.
Definition change_p (sd : side) (x : nat) (r : topic) (q : nproc) : nproc :=
  match aget x (hf_ends (np_half sd q)) with
  | Some e => np_set sd (Half (hf_gate (np_half sd q)) (aset x (NEnd (ne_name e) (ne_id e) r (ne_conn e)) (hf_ends (np_half sd q)))) q
  | None => q
  end.
Definition applied_p (l : list sample) (q : nproc) : nproc := NProc (np_cfg q) (np_rx q) (np_pub q) (np_sub q) (np_applied q ++ l).
Definition remove_p (sd : side) (x : nat) (q : nproc) : nproc :=
  match aget x (hf_ends (np_half sd q)) with
  | Some e => applied_p [n_unreg (np_cfg q) sd e]
                (np_set sd (Half (Gate true (map (fun xe => (ne_name (snd xe), fst xe)) (adel x (hf_ends (np_half sd q))))) (adel x (hf_ends (np_half sd q)))) q)
  | None => q
  end.
Definition collect_p (now : Z) (q : nproc) : nproc :=
  NProc (np_cfg q) (np_rx q) (checked now (np_pub q)) (checked now (np_sub q)) (np_applied q).
Definition next (o : nop) (s : net) : net :=
  match o with
  | NStart p c => match aget p (nt_procs s) with
                  | Some _ => s
                  | None => Net (aset p (NProc c Listening (Half (Gate true []) []) (Half (Gate true []) []) []) (nt_procs s)) (nt_sent s)
                  end
  | NCreate p sd x name id r => at_proc p s (fun q => (create_p sd x name id r q, []))
  | NTouch p sd x r => at_proc p s (fun q => (change_p sd x r q, []))
  | NRegister p x => at_proc p s (fun q => (match aget x (hf_ends (np_pub q)) with Some e => applied_p [n_reg (np_cfg q) PubSide e] q | None => q end, []))
  | NDestroy p sd x => at_proc p s (fun q => (remove_p sd x q, []))
  | NCollect p now => at_proc p s (fun q => (collect_p now q, samples_of (np_cfg q) SubSide (checked now (np_sub q)) ++ samples_of (np_cfg q) PubSide (checked now (np_pub q))))
  | NFlush p => at_proc p s (fun q => (NProc (np_cfg q) (np_rx q) (np_pub q) (np_sub q) [], np_applied q))
  | NDeliver p k now => match nth_error (nt_sent s) k with Some m => at_proc p s (fun q => (datagram_effect now m q, [])) | None => s end
  end.
Lemma aset_self {A} p (q : A) (l : list (nat * A)) : aget p l = Some q -> aset p q l = l.
Proof.
  induction l as [|[k v] l IH]; cbn; [discriminate|]. destruct (eqb p k) eqn:E; intros G.
  - apply eqb_true in E. congruence.
  - rewrite IH by exact G. reflexivity.
Qed.
Lemma erase1_adel n x (l : list (nat * nend)) e : NoDup (keys l) -> aget x l = Some e -> n = ne_name e ->
  fst (erase1 n x (map (fun xe => (ne_name (snd xe), fst xe)) l)) = map (fun xe => (ne_name (snd xe), fst xe)) (adel x l).
Proof.
  induction l as [|[y d] l IH]; cbn -[erase1]; [discriminate|]. intros ND G ->. inversion ND as [|a b NI ND']; subst.
  cbn [erase1]. unfold adel in *. cbn [filter fst]. destruct (eqb x y) eqn:E; cbn [negb].
  - apply eqb_true in E. subst y. injection G as ->. rewrite eqb_refl. cbn [fst].
    f_equal. symmetry. apply filter_all. intros [z d] I1. cbn. rewrite neq_eqb; [reflexivity|]. intros <-. apply NI.
    change x with (fst (x, d)). apply in_map, I1.
  - assert (X : eqb (ne_name d, y) (ne_name e, x) = false).
    { apply neq_eqb. intros Q. injection Q as _ ->. rewrite eqb_refl in E. discriminate. }
    rewrite X. pose proof (IH ND' G eq_refl) as H. destruct (erase1 (ne_name e) x _) as [r b]. cbn [fst map snd] in *. rewrite H. reflexivity.
Qed.
Lemma step_next o s : good s -> net_step o s = Some (next o s).
Proof.
  intros G.
  assert (ON : forall p f g, (forall q, aget p (nt_procs s) = Some q -> f q = Some (g q)) -> on_proc p s f = Some (at_proc p s g)).
  { intros p f g E. unfold on_proc, at_proc. destruct (aget p (nt_procs s)) as [q|] eqn:Q; [|reflexivity]. rewrite (E q eq_refl).
    destruct (g q) as [q' out]. reflexivity. }
  destruct o as [p c|p sd x name id r|p sd x r|p x|p sd x|p now|p|p k now]; cbn [net_step next].
  - destruct (aget p (nt_procs s)); reflexivity.
  - apply ON. intros q Q. cbn zeta. unfold create_p. pose proof (pg_half _ (G p q Q) sd) as H.
    destruct (aget x (hf_ends (np_half sd q))) eqn:E; [reflexivity|]. unfold gt_register. rewrite (gate_on _ _ H). reflexivity.
  - apply ON. intros q Q. cbn zeta. unfold change_p. destruct (aget x (hf_ends (np_half sd q))); reflexivity.
  - apply ON. intros q Q. destruct (aget x (hf_ends (np_pub q))); reflexivity.
  - apply ON. intros q Q. cbn zeta. unfold remove_p. pose proof (pg_half _ (G p q Q) sd) as [ND GA ST].
    destruct (aget x (hf_ends (np_half sd q))) as [e|] eqn:E; [|reflexivity].
    unfold gt_unregister. rewrite GA. cbn [gt_on gt_map]. pose proof (erase1_adel (ne_name e) x _ e ND E eq_refl) as X.
    destruct (erase1 (ne_name e) x _) as [l b]. cbn [fst] in *. subst l. reflexivity.
  - apply ON. intros q Q. pose proof (pg_half _ (G p q Q)) as H.
    rewrite (collect_spec (nc_timeout (np_cfg q))) by exact (H SubSide). rewrite (collect_spec (nc_timeout (np_cfg q))) by exact (H PubSide). reflexivity.
  - apply ON. reflexivity.
  - destruct (nth_error (nt_sent s) k) as [m|]; [|reflexivity]. apply ON. intros q Q. rewrite datagram_spec by exact (G p q Q). reflexivity.
Qed.
Lemma good_at p s f : good s -> (forall q, pgood q -> pgood (fst (f q))) -> good (at_proc p s f).
Proof.
  intros G F. unfold at_proc. destruct (aget p (nt_procs s)) as [q|] eqn:Q; [|exact G].
  intros p' q' Q'. cbn in Q'. rewrite aget_aset in Q'. destruct (eqb p' p) eqn:E; [|exact (G p' q' Q')].
  injection Q' as <-. apply F, (G p q Q).
Qed.
Lemma pgood_set sd h q : pgood q -> hgood (nc_timeout (np_cfg q)) h -> pgood (np_set sd h q).
Proof.
  intros PG H. constructor; [destruct sd; exact (pg_rx _ PG)|].
  intros sd'. rewrite half_set. pose proof (pg_half _ PG sd') as G. destruct sd, sd'; cbn in *; assumption.
Qed.
Lemma keys_new {A} x (e : A) (l : list (nat * A)) : aget x l = None -> aset x e l = l ++ [(x, e)].
Proof.
  induction l as [|[k v] l IH]; cbn; [reflexivity|]. destruct (eqb x k); [discriminate|]. intros G. rewrite IH by exact G. reflexivity.
Qed.
Lemma next_good o s : good s -> good (next o s).
Proof.
  intros G. destruct o as [p c|p sd x name id r|p sd x r|p x|p sd x|p now|p|p k now]; cbn [next].
  - destruct (aget p (nt_procs s)) eqn:E; [exact G|]. intros p' q' Q'. cbn in Q'. rewrite aget_aset in Q'.
    destruct (eqb p' p); [|exact (G p' q' Q')]. injection Q' as <-. constructor; [reflexivity|].
    intros sd. destruct sd; (constructor; cbn; [constructor|reflexivity|intros ? ? []]).
  - apply good_at; [exact G|]. intros q PG. cbn. unfold create_p. pose proof (pg_half _ PG sd) as [ND GA ST].
    destruct (aget x (hf_ends (np_half sd q))) eqn:E; [exact PG|]. apply pgood_set; [exact PG|]. constructor; cbn [hf_gate hf_ends].
    + apply nodup_aset, ND.
    + rewrite (keys_new x _ _ E), map_app, GA. reflexivity.
    + intros y e I1. rewrite (keys_new x _ _ E) in I1. apply in_app_iff in I1. destruct I1 as [I1|[I1|[]]]; [exact (ST y e I1)|].
      injection I1 as <- <-. exists []. reflexivity.
  - apply good_at; [exact G|]. intros q PG. cbn. unfold change_p. pose proof (pg_half _ PG sd) as [ND GA ST].
    destruct (aget x (hf_ends (np_half sd q))) as [e|] eqn:E; [|exact PG]. apply pgood_set; [exact PG|].
    rewrite (aset_map (fun e => NEnd (ne_name e) (ne_id e) r (ne_conn e)) x e) by assumption.
    constructor; cbn [hf_gate hf_ends].
    + unfold keys in *. rewrite map_map. exact ND.
    + rewrite GA, map_map. cbn. f_equal. apply map_ext. intros [y d]. cbn. destruct (eqb y x); reflexivity.
    + intros y d I1. apply in_map_iff in I1. destruct I1 as ([z d'] & Q & I1). cbn in Q. injection Q as <- <-.
      pose proof (ST z d' I1) as W. destruct (eqb z x); exact W.
  - apply good_at; [exact G|]. intros q PG. cbn. destruct (aget x (hf_ends (np_pub q))); [|exact PG].
    constructor; [exact (pg_rx _ PG)|]. intros sd. pose proof (pg_half _ PG sd) as H. destruct sd; exact H.
  - apply good_at; [exact G|]. intros q PG. cbn. unfold remove_p. destruct (aget x (hf_ends (np_half sd q))) as [e|] eqn:E; [|exact PG].
    pose proof (pg_half _ PG sd) as [ND GA ST].
    assert (H : pgood (np_set sd (Half (Gate true (map (fun xe => (ne_name (snd xe), fst xe)) (adel x (hf_ends (np_half sd q))))) (adel x (hf_ends (np_half sd q)))) q)).
    { apply pgood_set; [exact PG|]. constructor; cbn [hf_gate hf_ends]; [apply nodup_adel, ND|reflexivity|].
      intros y d I1. unfold adel in I1. apply filter_In in I1. exact (ST y d (proj1 I1)). }
    constructor; [exact (pg_rx _ H)|]. intros sd'. pose proof (pg_half _ H sd') as H'. destruct sd'; exact H'.
  - apply good_at; [exact G|]. intros q PG. cbn. constructor; [exact (pg_rx _ PG)|].
    intros sd. pose proof (pg_half _ PG sd) as H. destruct sd; apply touch_good; exact H.
  - apply good_at; [exact G|]. intros q PG. cbn. constructor; [exact (pg_rx _ PG)|]. intros sd. pose proof (pg_half _ PG sd) as H. destruct sd; exact H.
  - destruct (nth_error (nt_sent s) k) as [m|]; [|exact G]. apply good_at; [exact G|]. intros q PG. apply datagram_good, PG.
Qed.
Definition nexts (l : list nop) (s : net) : net := fold_left (fun s o => next o s) l s.
Lemma run_nexts l : forall s, good s -> net_run l s = Some (nexts l s).
Proof. induction l as [|o l IH]; intros s G; cbn; [reflexivity|]. rewrite step_next by exact G. apply IH, next_good, G. Qed.
Lemma nexts_good l : forall s, good s -> good (nexts l s).
Proof. induction l as [|o l IH]; intros s G; cbn; [exact G|]. apply IH, next_good, G. Qed.
Lemma good0 : good net0. Proof. intros p q Q. discriminate. Qed.
Lemma reach_iff ops s : reach ops s <-> s = nexts ops net0.
Proof. unfold reach. rewrite (run_nexts _ _ good0). split; [intros H; injection H as <-; reflexivity|intros ->; reflexivity]. Qed.
Lemma reach_good ops s : reach ops s -> good s.
Proof. intros R. apply reach_iff in R. subst s. apply nexts_good, good0. Qed.

(** ** One object along the steps *)
Definition cause (o : nop) (sent : list sample) (p : nat) (c : ncfg) (sd : side) (e : nend) : option wcall :=
  match o with
  | NCollect p' now => if Nat.eqb p' p then Some (WCheck now) else None
  | NDeliver p' k now =>
      if Nat.eqb p' p then
        match nth_error sent k with
        | Some m => match de_sample (ser_sample m) with
                    | Ok m' => if eqb (ne_name e) (tp_tname (sm_topic m')) then effect c sd now m' else None
                    | _ => None
                    end
        | None => None
        end
      else None
  | _ => None
  end.
Definition moved (o : nop) (sent : list sample) (p : nat) (c : ncfg) (sd : side) (x : nat) (e e' : nend) : Prop :=
  ne_name e' = ne_name e /\ ne_id e' = ne_id e /\
  ne_conn e' = (match cause o sent p c sd e with Some w => ne_conn (call w e) | None => ne_conn e end) /\
  (ne_rest e' = ne_rest e \/ exists r, o = NTouch p sd x r /\ ne_rest e' = r).
Definition end_next (o : nop) (sent : list sample) (p : nat) (c : ncfg) (sd : side) (x : nat) (q : nproc) : option nend :=
  match aget x (hf_ends (np_half sd q)) with
  | Some e => match o with
              | NDestroy p' sd' x' => if (Nat.eqb p' p && Nat.eqb x' x && match sd, sd' with PubSide, PubSide | SubSide, SubSide => true | _, _ => false end)%bool then None else Some e
              | NTouch p' sd' x' r => if (Nat.eqb p' p && Nat.eqb x' x && match sd, sd' with PubSide, PubSide | SubSide, SubSide => true | _, _ => false end)%bool
                                      then Some (NEnd (ne_name e) (ne_id e) r (ne_conn e)) else Some e
              | _ => match cause o sent p c sd e with Some w => Some (call w e) | None => Some e end
              end
  | None => match o with
            | NCreate p' sd' x' name id r => if (Nat.eqb p' p && Nat.eqb x' x && match sd, sd' with PubSide, PubSide | SubSide, SubSide => true | _, _ => false end)%bool
                                      then Some (NEnd name id r (conn_new (nc_timeout c))) else None
            | _ => None
            end
  end.
Lemma aset_other {A} (p p' : nat) (q : A) l : p' <> p -> aget p' (aset p q l) = aget p' l.
Proof. intros N. rewrite aget_aset, neq_eqb by exact N. reflexivity. Qed.
Lemma proc_at p s f p' : aget p' (nt_procs (at_proc p s f)) = match aget p' (nt_procs s) with
  | Some q => Some (if Nat.eqb p p' then fst (f q) else q) | None => None end.
Proof.
  unfold at_proc. destruct (aget p (nt_procs s)) as [q|] eqn:Q.
  - cbn [nt_procs]. rewrite aget_aset. destruct (eqb p' p) eqn:E.
    + apply eqb_true in E. subst p'. rewrite Q, Nat.eqb_refl. reflexivity.
    + assert (X : Nat.eqb p p' = false) by (apply Nat.eqb_neq; apply eqb_false in E; congruence). rewrite X. destruct (aget p' (nt_procs s)); reflexivity.
  - destruct (aget p' (nt_procs s)) as [q'|] eqn:Q'; [|reflexivity]. destruct (Nat.eqb p p') eqn:E; [|reflexivity].
    apply Nat.eqb_eq in E. congruence.
Qed.
Definition same_side (a b : side) : bool := match a, b with PubSide, PubSide | SubSide, SubSide => true | _, _ => false end.
Lemma same_side_eq a b : same_side a b = true <-> a = b. Proof. destruct a, b; split; easy. Qed.

Lemma cfg_set sd h q : np_cfg (np_set sd h q) = np_cfg q. Proof. destruct sd; reflexivity. Qed.
Lemma aget_half_set sd sd' h q x : aget x (hf_ends (np_half sd (np_set sd' h q))) =
  if same_side sd sd' then aget x (hf_ends h) else aget x (hf_ends (np_half sd q)).
Proof. destruct sd, sd'; reflexivity. Qed.

Lemma proc_next o s p q : good s -> aget p (nt_procs s) = Some q ->
  exists q', aget p (nt_procs (next o s)) = Some q' /\ np_cfg q' = np_cfg q /\
    forall sd x, aget x (hf_ends (np_half sd q')) = end_next o (nt_sent s) p (np_cfg q) sd x q.
Proof.
  intros G Q. pose proof (G p q Q) as PG. unfold end_next.
  assert (ID : forall sd x, aget x (hf_ends (np_half sd q)) = match aget x (hf_ends (np_half sd q)) with Some e => Some e | None => None end)
    by (intros sd x; destruct (aget x (hf_ends (np_half sd q))); reflexivity).
  destruct o as [p' c|p' sd' x' name id r|p' sd' x' r|p' x'|p' sd' x'|p' now|p'|p' k now]; cbn [next cause].
  - exists q. destruct (aget p' (nt_procs s)) eqn:E.
    + auto.
    + cbn [nt_procs]. rewrite aset_other by congruence. auto.
  - rewrite proc_at, Q. destruct (Nat.eqb p' p); cbn [fst andb].
    2: { exists q. auto. }
    exists (create_p sd' x' name id r q). split; [reflexivity|]. unfold create_p.
    destruct (aget x' (hf_ends (np_half sd' q))) as [e0|] eqn:E.
    + split; [reflexivity|]. intros sd x. destruct (aget x (hf_ends (np_half sd q))) eqn:E2; [reflexivity|].
      destruct (Nat.eqb x' x) eqn:EX; [|reflexivity]. apply Nat.eqb_eq in EX. subst x'. destruct sd, sd'; cbn in *; try reflexivity; congruence.
    + rewrite cfg_set. split; [reflexivity|]. intros sd x. rewrite aget_half_set. destruct (same_side sd sd') eqn:SS.
      * apply same_side_eq in SS. subst sd'. cbn [hf_ends]. rewrite aget_aset. destruct (eqb x x') eqn:EX.
        -- apply eqb_true in EX. subst x'. rewrite E, Nat.eqb_refl. destruct sd; reflexivity.
        -- apply eqb_false in EX. assert (N : Nat.eqb x' x = false) by (apply Nat.eqb_neq; congruence). rewrite N. cbn [andb].
           destruct (aget x (hf_ends (np_half sd q))); reflexivity.
      * unfold same_side in SS. rewrite SS, andb_false_r. destruct (aget x (hf_ends (np_half sd q))); reflexivity.
  - rewrite proc_at, Q. destruct (Nat.eqb p' p); cbn [fst andb].
    2: { exists q. auto. }
    exists (change_p sd' x' r q). split; [reflexivity|]. unfold change_p.
    destruct (aget x' (hf_ends (np_half sd' q))) as [e0|] eqn:E.
    + rewrite cfg_set. split; [reflexivity|]. intros sd x. rewrite aget_half_set. destruct (same_side sd sd') eqn:SS.
      * apply same_side_eq in SS. subst sd'. cbn [hf_ends]. rewrite aget_aset. destruct (eqb x x') eqn:EX.
        -- apply eqb_true in EX. subst x'. rewrite E, Nat.eqb_refl. destruct sd; reflexivity.
        -- apply eqb_false in EX. assert (N : Nat.eqb x' x = false) by (apply Nat.eqb_neq; congruence). rewrite N. cbn [andb].
           destruct (aget x (hf_ends (np_half sd q))); reflexivity.
      * unfold same_side in SS. rewrite SS, andb_false_r. destruct (aget x (hf_ends (np_half sd q))); reflexivity.
    + split; [reflexivity|]. intros sd x. destruct (aget x (hf_ends (np_half sd q))) eqn:E2; [|reflexivity].
      destruct (Nat.eqb x' x) eqn:EX; [|reflexivity]. apply Nat.eqb_eq in EX. subst x'. destruct sd, sd'; cbn in *; try reflexivity; congruence.
  - rewrite proc_at, Q. destruct (Nat.eqb p' p); cbn [fst].
    2: { exists q. auto. }
    eexists. split; [reflexivity|]. destruct (aget x' (hf_ends (np_pub q))).
    + split; [reflexivity|]. intros sd x. transitivity (aget x (hf_ends (np_half sd q))); [destruct sd; reflexivity|apply ID].
    + split; [reflexivity|]. exact ID.
  - rewrite proc_at, Q. destruct (Nat.eqb p' p); cbn [fst andb].
    2: { exists q. auto. }
    exists (remove_p sd' x' q). split; [reflexivity|]. unfold remove_p.
    destruct (aget x' (hf_ends (np_half sd' q))) as [e0|] eqn:E.
    + split; [apply cfg_set|]. intros sd x.
      transitivity (aget x (hf_ends (np_half sd (np_set sd' (Half (Gate true (map (fun xe => (ne_name (snd xe), fst xe)) (adel x' (hf_ends (np_half sd' q))))) (adel x' (hf_ends (np_half sd' q)))) q)))); [destruct sd; reflexivity|].
      rewrite aget_half_set. destruct (same_side sd sd') eqn:SS.
      * apply same_side_eq in SS. subst sd'. cbn [hf_ends]. rewrite aget_adel. destruct (eqb x x') eqn:EX.
        -- apply eqb_true in EX. subst x'. rewrite E, Nat.eqb_refl. destruct sd; reflexivity.
        -- apply eqb_false in EX. assert (N : Nat.eqb x' x = false) by (apply Nat.eqb_neq; congruence). rewrite N. cbn [andb].
           destruct (aget x (hf_ends (np_half sd q))); reflexivity.
      * unfold same_side in SS. rewrite SS, andb_false_r. destruct (aget x (hf_ends (np_half sd q))); reflexivity.
    + split; [reflexivity|]. intros sd x. destruct (aget x (hf_ends (np_half sd q))) eqn:E2; [|reflexivity].
      destruct (Nat.eqb x' x) eqn:EX; [|reflexivity]. apply Nat.eqb_eq in EX. subst x'. destruct sd, sd'; cbn in *; try reflexivity; congruence.
  - rewrite proc_at, Q. destruct (Nat.eqb p' p); cbn [fst].
    2: { exists q. auto. }
    exists (collect_p now q). split; [reflexivity|]. split; [reflexivity|]. intros sd x.
    transitivity (aget x (hf_ends (checked now (np_half sd q)))); [destruct sd; reflexivity|]. unfold checked. rewrite aget_touch. reflexivity.
  - rewrite proc_at, Q. exists (if Nat.eqb p' p then NProc (np_cfg q) (np_rx q) (np_pub q) (np_sub q) [] else q).
    split; [destruct (Nat.eqb p' p); reflexivity|]. destruct (Nat.eqb p' p); (split; [reflexivity|]); intros sd x;
      (transitivity (aget x (hf_ends (np_half sd q))); [destruct sd; reflexivity|apply ID]).
  - destruct (nth_error (nt_sent s) k) as [m|].
    2: { exists q. split; [exact Q|]. split; [reflexivity|]. intros sd x. destruct (Nat.eqb p' p); apply ID. }
    rewrite proc_at, Q. destruct (Nat.eqb p' p); cbn [fst].
    2: { exists q. auto. }
    exists (datagram_effect now m q). split; [reflexivity|]. unfold datagram_effect. destruct (de_sample (ser_sample m)) as [m'| |].
    2, 3: split; [reflexivity|exact ID].
    split; [reflexivity|]. intros sd x.
    transitivity (aget x (hf_ends (match effect (np_cfg q) sd now m' with Some o => touch (reacts (tp_tname (sm_topic m')) (np_half sd q)) o (np_half sd q) | None => np_half sd q end)));
      [destruct sd; reflexivity|].
    destruct (effect (np_cfg q) sd now m') as [w|].
    + rewrite aget_touch. unfold reacts. destruct (aget x (hf_ends (np_half sd q))) as [e|] eqn:E; [|reflexivity].
      destruct (eqb (ne_name e) (tp_tname (sm_topic m'))); reflexivity.
    + rewrite ID at 1. destruct (aget x (hf_ends (np_half sd q))) as [e|]; [|reflexivity].
      destruct (eqb (ne_name e) (tp_tname (sm_topic m'))); reflexivity.
Qed.

Lemma cause_other o sent p c sd e : cause o sent p c sd e = None \/ (exists now, o = NCollect p now /\ cause o sent p c sd e = Some (WCheck now)) \/
  (exists k now m m', o = NDeliver p k now /\ nth_error sent k = Some m /\ de_sample (ser_sample m) = Ok m' /\ tp_tname (sm_topic m') = ne_name e /\
     cause o sent p c sd e = effect c sd now m').
Proof.
  destruct o as [| | | | |p' now| |p' k now]; cbn [cause]; try (left; reflexivity).
  - destruct (Nat.eqb p' p) eqn:E; [|left; reflexivity]. apply Nat.eqb_eq in E. subst p'. right. left. eauto.
  - destruct (Nat.eqb p' p) eqn:E; [|left; reflexivity]. apply Nat.eqb_eq in E. subst p'.
    destruct (nth_error sent k) as [m|] eqn:N; [|left; reflexivity]. destruct (de_sample (ser_sample m)) as [m'| |] eqn:D; try (left; reflexivity).
    destruct (eqb (ne_name e) (tp_tname (sm_topic m'))) eqn:E; [|left; reflexivity]. apply eqb_true in E.
    right. right. exists k, now, m, m'. auto.
Qed.
Lemma cause_more o sent out p c sd e w : cause o sent p c sd e = Some w -> cause o (sent ++ out) p c sd e = Some w.
Proof.
  destruct o as [| | | | |p' now| |p' k now]; cbn [cause]; auto. destruct (Nat.eqb p' p); [|auto].
  destruct (nth_error sent k) as [m|] eqn:N; [|discriminate].
  rewrite nth_error_app1 by (apply nth_error_Some; congruence). rewrite N. auto.
Qed.
Lemma cause_name o sent p c sd e e' : ne_name e' = ne_name e -> cause o sent p c sd e' = cause o sent p c sd e.
Proof. intros E. destruct o; cbn [cause]; try reflexivity. rewrite E. reflexivity. Qed.

Lemma end_back o sent p c sd x q e' : pgood q -> np_cfg q = c -> end_next o sent p c sd x q = Some e' ->
  (exists e, aget x (hf_ends (np_half sd q)) = Some e /\ moved o sent p c sd x e e') \/
  (exists name id r, o = NCreate p sd x name id r /\ e' = NEnd name id r (conn_new (nc_timeout c)) /\ aget x (hf_ends (np_half sd q)) = None).
Proof.
  intros PG EC. unfold end_next. destruct (aget x (hf_ends (np_half sd q))) as [e|] eqn:G.
  - intros E. left. exists e. split; [reflexivity|].
    destruct (hg_story _ _ (pg_half _ PG sd) x e (aget_in _ _ _ G)) as (os & St).
    assert (K : forall w, ne_name (call w e) = ne_name e /\ ne_id (call w e) = ne_id e /\ ne_rest (call w e) = ne_rest e).
    { intros w. pose proof (call_spec _ os w e St) as (_ & _ & A). exact A. }
    unfold moved. destruct o as [p' c'|p' sd' x' name id r|p' sd' x' r|p' x'|p' sd' x'|p' now|p'|p' k now]; cbn [cause] in *.
    + injection E as <-. auto.
    + injection E as <-. auto.
    + destruct (Nat.eqb p' p && Nat.eqb x' x && _)%bool eqn:B; injection E as <-; [|auto]. cbn.
      apply andb_prop in B. destruct B as [B SS]. apply andb_prop in B. destruct B as [B1 B2]. apply Nat.eqb_eq in B1, B2. subst p' x'.
      change (same_side sd sd' = true) in SS. apply same_side_eq in SS. subst sd'. repeat split; auto. right. eauto.
    + injection E as <-. auto.
    + destruct (Nat.eqb p' p && Nat.eqb x' x && _)%bool; [discriminate|]. injection E as <-. auto.
    + destruct (Nat.eqb p' p); injection E as <-; [|auto]. destruct (K (WCheck now)) as (A & B & C). auto.
    + injection E as <-. auto.
    + destruct (if Nat.eqb p' p then _ else None) as [w|]; injection E as <-; [|auto]. destruct (K w) as (A & B & C). auto.
  - intros E. right. destruct o as [p' c'|p' sd' x' name id r|p' sd' x' r|p' x'|p' sd' x'|p' now|p'|p' k now]; try discriminate.
    destruct (Nat.eqb p' p && Nat.eqb x' x && _)%bool eqn:B; [|discriminate]. injection E as <-.
    apply andb_prop in B. destruct B as [B SS]. apply andb_prop in B. destruct B as [B1 B2]. apply Nat.eqb_eq in B1, B2. subst p' x'.
    change (same_side sd sd' = true) in SS. apply same_side_eq in SS. subst sd'. eauto 6.
Qed.
Lemma proc_back o s p q' : aget p (nt_procs (next o s)) = Some q' ->
  (exists q, aget p (nt_procs s) = Some q) \/ (exists c, o = NStart p c /\ q' = NProc c Listening (Half (Gate true []) []) (Half (Gate true []) []) [] /\ aget p (nt_procs s) = None).
Proof.
  assert (AT : forall p' f, aget p (nt_procs (at_proc p' s f)) = Some q' -> exists q, aget p (nt_procs s) = Some q).
  { intros p' f. rewrite proc_at. destruct (aget p (nt_procs s)); [eauto|discriminate]. }
  destruct o as [p' c'|p' sd' x' name id r|p' sd' x' r|p' x'|p' sd' x'|p' now|p'|p' k now]; cbn [next]; intros E; try (left; eapply AT; exact E).
  - destruct (aget p' (nt_procs s)) eqn:E'; [left; eauto|]. cbn in E. rewrite aget_aset in E. destruct (eqb p p') eqn:EP; [|left; eauto].
    apply eqb_true in EP. subst p'. injection E as <-. right. eauto.
  - destruct (nth_error (nt_sent s) k); left; [eapply AT; exact E|eauto].
Qed.
Lemma here_back o s p sd x c e' : good s -> here (next o s) p sd x c e' ->
  (exists e, here s p sd x c e /\ moved o (nt_sent s) p c sd x e e') \/
  (exists name id r, o = NCreate p sd x name id r /\ e' = NEnd name id r (conn_new (nc_timeout c)) /\
     exists q, aget p (nt_procs s) = Some q /\ np_cfg q = c).
Proof.
  intros G (q' & Q' & EC & GE). destruct (proc_back o s p q' Q') as [(q & Q)|(c' & -> & -> & _)].
  - destruct (proc_next o s p q G Q) as (q2 & Q2 & C2 & EN). rewrite Q' in Q2. injection Q2 as <-. rewrite EN in GE.
    rewrite EC in C2. destruct (end_back o _ p (np_cfg q) sd x q e' (G p q Q) eq_refl GE) as [(e & E1 & M)|(n & i & r & E1 & E2 & E3)].
    + left. exists e. rewrite <- C2 in *. split; [exists q; auto|exact M].
    + right. exists n, i, r. rewrite <- C2 in *. eauto.
  - exfalso. destruct sd; discriminate.
Qed.
Lemma here_fwd o s p sd x c e : good s -> here s p sd x c e -> o <> NDestroy p sd x ->
  exists e', here (next o s) p sd x c e' /\ moved o (nt_sent s) p c sd x e e'.
Proof.
  intros G (q & Q & EC & GE) ND. destruct (proc_next o s p q G Q) as (q' & Q' & C' & EN).
  assert (X : exists e', end_next o (nt_sent s) p c sd x q = Some e').
  { unfold end_next. rewrite GE. destruct o as [p' c'|p' sd' x' name id r|p' sd' x' r|p' x'|p' sd' x'|p' now|p'|p' k now]; try (destruct (cause _ _ _ _ _ _); eauto; fail).
    - destruct (_ && _)%bool; eauto.
    - destruct (_ && _)%bool eqn:B; [|eauto]. exfalso. apply ND.
      apply andb_prop in B. destruct B as [B SS]. apply andb_prop in B. destruct B as [B1 B2]. apply Nat.eqb_eq in B1, B2. subst p' x'.
      change (same_side sd sd' = true) in SS. apply same_side_eq in SS. subst sd'. reflexivity. }
  destruct X as (e' & X). exists e'. split.
  - exists q'. split; [exact Q'|]. split; [congruence|]. rewrite EN, EC. exact X.
  - destruct (end_back o _ p c sd x q e' (G p q Q) EC X) as [(e2 & E1 & M)|(n & i & r & E1 & E2 & E3)]; [|congruence].
    rewrite GE in E1. injection E1 as <-. exact M.
Qed.
Lemma nexts_snoc ops o s : nexts (ops ++ [o]) s = next o (nexts ops s).
Proof. unfold nexts. rewrite fold_left_app. reflexivity. Qed.
Lemma nexts_app a b s : nexts (a ++ b) s = nexts b (nexts a s).
Proof. unfold nexts. apply fold_left_app. Qed.
Definition at_end (ops : list nop) : net := nexts ops net0.
Lemma at_end_good ops : good (at_end ops). Proof. apply nexts_good, good0. Qed.
Lemma at_end_snoc ops o : at_end (ops ++ [o]) = next o (at_end ops). Proof. apply nexts_snoc. Qed.

(** ** What is sent *)
Lemma sent_at p s f : exists out, nt_sent (at_proc p s f) = nt_sent s ++ out /\ (out = [] \/ exists q, aget p (nt_procs s) = Some q /\ out = snd (f q)).
Proof.
  unfold at_proc. destruct (aget p (nt_procs s)) as [q|].
  - exists (snd (f q)). split; [reflexivity|]. right. eauto.
  - exists []. rewrite app_nil_r. auto.
Qed.
Lemma sent_next o s : good s -> exists out, nt_sent (next o s) = nt_sent s ++ out /\
  forall m, In m out -> (exists p now q, o = NCollect p now /\ aget p (nt_procs s) = Some q /\
                           In m (samples_of (np_cfg q) SubSide (checked now (np_sub q)) ++ samples_of (np_cfg q) PubSide (checked now (np_pub q)))) \/
                        (exists p q, aget p (nt_procs s) = Some q /\ In m (np_applied q)).
Proof.
  intros G. destruct o as [p' c'|p' sd' x' name id r|p' sd' x' r|p' x'|p' sd' x'|p' now|p'|p' k now]; cbn [next].
  - exists []. rewrite app_nil_r. split; [destruct (aget p' (nt_procs s)); reflexivity|intros m []].
  - destruct (sent_at p' s (fun q => (create_p sd' x' name id r q, []))) as (out & E & [->|(q & Q & ->)]); exists []; (split; [exact E|intros m []]).
  - destruct (sent_at p' s (fun q => (change_p sd' x' r q, []))) as (out & E & [->|(q & Q & ->)]); exists []; (split; [exact E|intros m []]).
  - destruct (sent_at p' s (fun q => (match aget x' (hf_ends (np_pub q)) with Some e => applied_p [n_reg (np_cfg q) PubSide e] q | None => q end, []))) as (out & E & [->|(q & Q & ->)]); exists []; (split; [exact E|intros m []]).
  - destruct (sent_at p' s (fun q => (remove_p sd' x' q, []))) as (out & E & [->|(q & Q & ->)]); exists []; (split; [exact E|intros m []]).
  - destruct (sent_at p' s (fun q => (collect_p now q, samples_of (np_cfg q) SubSide (checked now (np_sub q)) ++ samples_of (np_cfg q) PubSide (checked now (np_pub q))))) as (out & E & [->|(q & Q & ->)]).
    + exists []. split; [exact E|intros m []].
    + eexists. split; [exact E|]. cbn [snd]. intros m I1. left. exists p', now, q. auto.
  - destruct (sent_at p' s (fun q => (NProc (np_cfg q) (np_rx q) (np_pub q) (np_sub q) [], np_applied q))) as (out & E & [->|(q & Q & ->)]).
    + exists []. split; [exact E|intros m []].
    + eexists. split; [exact E|]. cbn [snd]. intros m I1. right. eauto.
  - destruct (nth_error (nt_sent s) k) as [m0|].
    + destruct (sent_at p' s (fun q => (datagram_effect now m0 q, []))) as (out & E & [->|(q & Q & ->)]); exists []; (split; [exact E|intros m []]).
    + exists []. rewrite app_nil_r. split; [reflexivity|intros m []].
Qed.
Lemma applied_next o s p q' : good s -> aget p (nt_procs (next o s)) = Some q' -> forall m, In m (np_applied q') ->
  (exists q, aget p (nt_procs s) = Some q /\ In m (np_applied q)) \/
  (exists x c e sd, here s p sd x c e /\ (m = n_reg c sd e \/ m = n_unreg c sd e)).
Proof.
  intros G E m I1.
  assert (AT : forall p' f, aget p (nt_procs (at_proc p' s f)) = Some q' -> exists q, aget p (nt_procs s) = Some q /\ (q' = q \/ (p' = p /\ q' = fst (f q)))).
  { intros p' f. rewrite proc_at. destruct (aget p (nt_procs s)) as [q|] eqn:Q; [|discriminate]. intros X. injection X as <-. exists q. split; [reflexivity|].
    destruct (Nat.eqb p' p) eqn:EP; [|auto]. apply Nat.eqb_eq in EP. auto. }
  assert (SET : forall sd h q, np_applied (np_set sd h q) = np_applied q) by (intros [] h q; reflexivity).
  destruct o as [p' c'|p' sd' x' name id r|p' sd' x' r|p' x'|p' sd' x'|p' now|p'|p' k now]; cbn [next] in E.
  - destruct (aget p' (nt_procs s)) eqn:E'; [left; eauto|]. cbn in E. rewrite aget_aset in E. destruct (eqb p p'); [|left; eauto].
    injection E as <-. destruct I1.
  - destruct (AT _ _ E) as (q & Q & [->|(-> & ->)]); left; exists q; (split; [exact Q|]); [exact I1|]. cbn [fst] in I1. unfold create_p in I1.
    destruct (aget x' _) in I1; [exact I1|]. rewrite SET in I1. exact I1.
  - destruct (AT _ _ E) as (q & Q & [->|(-> & ->)]); left; exists q; (split; [exact Q|]); [exact I1|]. cbn [fst] in I1. unfold change_p in I1.
    destruct (aget x' _) in I1; [|exact I1]. rewrite SET in I1. exact I1.
  - destruct (AT _ _ E) as (q & Q & [->|(-> & ->)]); [left; eauto|]. cbn [fst] in I1. destruct (aget x' (hf_ends (np_pub q))) as [e|] eqn:GE; [|left; eauto].
    cbn in I1. apply in_app_iff in I1. destruct I1 as [I1|[<-|[]]]; [left; eauto|]. right. exists x', (np_cfg q), e, PubSide. split; [exists q; auto|auto].
  - destruct (AT _ _ E) as (q & Q & [->|(-> & ->)]); [left; eauto|]. cbn [fst] in I1. unfold remove_p in I1. destruct (aget x' (hf_ends (np_half sd' q))) as [e|] eqn:GE; [|left; eauto].
    unfold applied_p in I1. cbn [np_applied] in I1. rewrite SET in I1.
    apply in_app_iff in I1. destruct I1 as [I1|[<-|[]]]; [left; eauto|]. right. exists x', (np_cfg q), e, sd'. split; [exists q; auto|auto].
  - destruct (AT _ _ E) as (q & Q & [->|(-> & ->)]); left; exists q; auto.
  - destruct (AT _ _ E) as (q & Q & [->|(-> & ->)]); [left; eauto|]. destruct I1.
  - destruct (nth_error (nt_sent s) k); [|left; eauto]. destruct (AT _ _ E) as (q & Q & [->|(-> & ->)]); left; exists q; (split; [exact Q|]); [exact I1|].
    cbn [fst] in I1. unfold datagram_effect in I1. destruct (de_sample _) in I1; exact I1.
Qed.

(** Every sample was made of an object that existed at some moment. *)
Definition born (ops : list nop) (m : sample) : Prop :=
  exists ops1 ops2 p sd x c e, ops = ops1 ++ ops2 /\ here (at_end ops1) p sd x c e /\ (m = n_reg c sd e \/ m = n_unreg c sd e).
Lemma born_snoc ops o m : born ops m -> born (ops ++ [o]) m.
Proof. intros (a & b & p & sd & x & c & e & -> & H). exists a, (b ++ [o]), p, sd, x, c, e. rewrite app_assoc. auto. Qed.
Lemma in_samples c sd h m : In m (samples_of c sd h) -> exists x e, In (x, e) (hf_ends h) /\ m = n_reg c sd e.
Proof. unfold samples_of. intros I1. apply in_map_iff in I1. destruct I1 as ([x e] & <- & I1). eauto. Qed.
Lemma all_born ops : (forall m, In m (nt_sent (at_end ops)) -> born ops m) /\
  (forall p q m, aget p (nt_procs (at_end ops)) = Some q -> In m (np_applied q) -> born ops m).
Proof.
  induction ops as [|o ops [IS IA]] using rev_ind.
  - split; [intros m []|]. intros p q m Q. discriminate.
  - rewrite at_end_snoc. pose proof (at_end_good ops) as G.
    assert (NOW : forall m p sd x c e, here (next o (at_end ops)) p sd x c e -> m = n_reg c sd e -> born (ops ++ [o]) m).
    { intros m p sd x c e H E. exists (ops ++ [o]), [], p, sd, x, c, e. rewrite app_nil_r, at_end_snoc. auto. }
    split.
    + destruct (sent_next o (at_end ops) G) as (out & E & O). rewrite E. intros m I1. apply in_app_iff in I1. destruct I1 as [I1|I1]; [apply born_snoc, IS, I1|].
      destruct (O m I1) as [(p & now & q & -> & Q & I2)|(p & q & Q & I2)]; [|apply born_snoc; eapply IA; eauto].
      assert (Q' : aget p (nt_procs (next (NCollect p now) (at_end ops))) = Some (collect_p now q)).
      { cbn [next]. rewrite proc_at, Q, Nat.eqb_refl. reflexivity. }
      pose proof (next_good (NCollect p now) _ G p _ Q') as PG'.
      apply in_app_iff in I2. destruct I2 as [I2|I2]; apply in_samples in I2; destruct I2 as (x & e & I2 & EM).
      * apply (NOW m p SubSide x (np_cfg q) e); [|exact EM]. exists (collect_p now q). split; [exact Q'|]. split; [reflexivity|].
        apply in_aget; [exact (hg_nd _ _ (pg_half _ PG' SubSide))|exact I2].
      * apply (NOW m p PubSide x (np_cfg q) e); [|exact EM]. exists (collect_p now q). split; [exact Q'|]. split; [reflexivity|].
        apply in_aget; [exact (hg_nd _ _ (pg_half _ PG' PubSide))|exact I2].
    + intros p q m Q I1. destruct (applied_next o _ p q G Q m I1) as [(q0 & Q0 & I2)|(x & c & e & sd & H & EM)].
      * apply born_snoc. eapply IA; eauto.
      * apply born_snoc. exists ops, [], p, sd, x, c, e. rewrite app_nil_r. auto.
Qed.

(** ** The calls an object got, and why *)
Definition wtimes (os : list wcall) : list Z := flat_map (fun o => match o with WApply t _ _ | WCheck t => [t] | WRemove _ => [] end) os.
Lemma effect_time c sd now m w : effect c sd now m = Some w -> wtimes [w] = [now] \/ wtimes [w] = [].
Proof.
  unfold effect. destruct (_ && _)%bool; [|discriminate]. destruct sd, (sm_cmd m); try discriminate.
  - intros E. injection E as <-. auto.
  - intros E. injection E as <-. auto.
  - destruct (confirmed _ _); [|discriminate]. intros E. injection E as <-. auto.
  - intros E. injection E as <-. auto.
Qed.
Lemma cause_time o sent p c sd e w : cause o sent p c sd e = Some w -> wtimes [w] = [] \/ wtimes [w] = times p [o].
Proof.
  intros E. destruct (cause_other o sent p c sd e) as [N|[(now & -> & N)|(k & now & m & m' & -> & _ & _ & _ & N)]].
  - congruence.
  - rewrite N in E. injection E as <-. right. cbn. rewrite Nat.eqb_refl. reflexivity.
  - rewrite N in E. destruct (effect_time _ _ _ _ _ E) as [T|T]; [right|left; exact T]. rewrite T. cbn. rewrite Nat.eqb_refl. reflexivity.
Qed.
Lemma story_step T os o sent p c sd x e e' : story T os (ne_conn e) -> moved o sent p c sd x e e' ->
  exists os', story T (os ++ os') (ne_conn e') /\ (forall w, In w os' <-> cause o sent p c sd e = Some w) /\ length os' <= 1.
Proof.
  intros St (_ & _ & C & _). rewrite C. destruct (cause o sent p c sd e) as [w|].
  - exists [w]. split; [apply (call_spec T os w e St)|]. split; [|cbn; lia]. intros w'. cbn. split; [intros [->|[]]; reflexivity|intros E; injection E as ->; auto].
  - exists []. rewrite app_nil_r. split; [exact St|]. split; [|cbn; lia]. intros w'. cbn. split; [tauto|discriminate].
Qed.
Lemma ascending_app a b : ascending (a ++ b) <-> ascending a /\ ascending b /\ forall t u, In t a -> In u b -> (t <= u)%Z.
Proof.
  induction a as [|x a IH]; cbn.
  - split; [intros H; split; [exact I|split; [exact H|intros ? ? []]]|intros (_ & H & _); exact H].
  - rewrite IH. split.
    + intros (H & A & B & C). split; [split; [intros u I1; apply H, in_or_app; auto|exact A]|]. split; [exact B|].
      intros t u [<-|I1] I2; [apply H, in_or_app; auto|apply C; assumption].
    + intros ((H & A) & B & C). split; [|split; [exact A|split; [exact B|intros t u I1 I2; apply C; auto]]].
      intros u I1. apply in_app_iff in I1. destruct I1 as [I1|I1]; [apply H, I1|apply C; auto].
Qed.
Lemma wtimes_app a b : wtimes (a ++ b) = wtimes a ++ wtimes b. Proof. apply flat_map_app. Qed.
Lemma times_app p a b : times p (a ++ b) = times p a ++ times p b. Proof. apply flat_map_app. Qed.
Lemma sent_more ops1 ops2 : exists out, nt_sent (at_end (ops1 ++ ops2)) = nt_sent (at_end ops1) ++ out.
Proof.
  induction ops2 as [|o ops2 (out & IH)] using rev_ind.
  - exists []. rewrite !app_nil_r. reflexivity.
  - rewrite app_assoc, at_end_snoc. destruct (sent_next o (at_end (ops1 ++ ops2)) (at_end_good _)) as (out' & E & _).
    exists (out ++ out'). rewrite E, IH, app_assoc. reflexivity.
Qed.
Definition timed (p : nat) (ops : list nop) (os : list wcall) : Prop :=
  steady p ops -> ascending (wtimes os) /\ (forall t, In t (wtimes os) -> In t (times p ops)).
Lemma timed_step p ops os o sent c sd e os' : timed p ops os -> (forall w, In w os' <-> cause o sent p c sd e = Some w) -> length os' <= 1 ->
  timed p (ops ++ [o]) (os ++ os').
Proof.
  intros T W L ST. unfold steady in ST. rewrite times_app in ST. apply ascending_app in ST. destruct ST as (S1 & S2 & S3).
  destruct (T S1) as (A & B). rewrite wtimes_app.
  destruct os' as [|w [|w' os']]; [|clear L|cbn in L; lia].
  - cbn. rewrite app_nil_r. split; [exact A|]. intros t I1. rewrite times_app. apply in_or_app. auto.
  - pose proof (proj1 (W w) (or_introl eq_refl)) as C. destruct (cause_time _ _ _ _ _ _ _ C) as [E|E]; rewrite E.
    + rewrite app_nil_r. split; [exact A|]. intros t I1. rewrite times_app. apply in_or_app. auto.
    + split; [apply ascending_app; split; [exact A|split; [exact S2|intros t u I1 I2; apply S3; auto]]|].
      intros t I1. rewrite times_app. apply in_app_iff in I1. apply in_or_app. destruct I1; auto.
Qed.
Lemma told ops p sd x c e : here (at_end ops) p sd x c e ->
  exists os, story (nc_timeout c) os (ne_conn e) /\ timed p ops os /\
    (forall w, In w os -> exists o, In o ops /\ cause o (nt_sent (at_end ops)) p c sd e = Some w).
Proof.
  revert e. induction ops as [|o ops IH] using rev_ind; intros e H.
  - destruct H as (q & Q & _). discriminate.
  - rewrite at_end_snoc in H |- *. pose proof (at_end_good ops) as G. destruct (here_back o _ p sd x c e G H) as [(e0 & H0 & M)|(n & i & r & -> & -> & _)].
    + destruct (IH e0 H0) as (os & St & TM & W). destruct (story_step _ os o _ p c sd x e0 e St M) as (os' & St' & W' & L).
      exists (os ++ os'). split; [exact St'|]. split; [exact (timed_step p ops os o _ c sd e0 os' TM W' L)|].
      destruct (sent_next o (at_end ops) G) as (out & E & _). rewrite E.
      destruct M as (MN & _). intros w I1. apply in_app_iff in I1. destruct I1 as [I1|I1].
      * destruct (W w I1) as (o' & I2 & C). exists o'. split; [apply in_or_app; auto|]. rewrite (cause_name _ _ _ _ _ e0 e MN). apply cause_more, C.
      * exists o. split; [apply in_or_app; right; left; reflexivity|]. rewrite (cause_name _ _ _ _ _ e0 e MN). apply cause_more. apply W', I1.
    + exists []. split; [reflexivity|]. split; [intros _; split; [exact I|intros t []]|]. intros w [].
Qed.
Lemma follow ops1 ops2 p sd x c e os : here (at_end ops1) p sd x c e -> story (nc_timeout c) os (ne_conn e) -> timed p ops1 os ->
  ~ In (NDestroy p sd x) ops2 ->
  exists e' os2, here (at_end (ops1 ++ ops2)) p sd x c e' /\ ne_name e' = ne_name e /\ ne_id e' = ne_id e /\
    story (nc_timeout c) (os ++ os2) (ne_conn e') /\ timed p (ops1 ++ ops2) (os ++ os2) /\
    (forall w, In w os2 -> exists o, In o ops2 /\ cause o (nt_sent (at_end (ops1 ++ ops2))) p c sd e = Some w).
Proof.
  intros H St TM. induction ops2 as [|o ops2 IH] using rev_ind; intros ND.
  - exists e, []. rewrite !app_nil_r. repeat split; auto; try apply TM; auto; try (intros w []).
  - destruct IH as (e1 & os2 & H1 & N1 & I1 & St1 & TM1 & W1); [intros X; apply ND, in_or_app; auto|].
    rewrite app_assoc, at_end_snoc. pose proof (at_end_good (ops1 ++ ops2)) as G.
    destruct (here_fwd o _ p sd x c e1 G H1) as (e' & H' & M); [intros ->; apply ND, in_or_app; right; left; reflexivity|].
    destruct (story_step _ _ o _ p c sd x e1 e' St1 M) as (os' & St' & W' & L).
    exists e', (os2 ++ os'). split; [exact H'|]. pose proof M as (MN & MI & _). split; [congruence|]. split; [congruence|].
    rewrite (app_assoc os). split; [exact St'|]. split; [exact (timed_step p _ _ o _ c sd e1 os' TM1 W' L)|].
    destruct (sent_next o _ G) as (out & E & _). rewrite E. intros w I2. apply in_app_iff in I2. destruct I2 as [I2|I2].
    + destruct (W1 w I2) as (o' & I3 & C). exists o'. split; [apply in_or_app; auto|]. apply cause_more, C.
    + exists o. split; [apply in_or_app; right; left; reflexivity|]. apply cause_more. rewrite <- (cause_name _ _ _ _ _ e e1 N1). apply W', I2.
Qed.

(** ** What a story says about the table *)
Definition untouched (k : subinfo) (os : list wcall) : Prop := (forall t v, ~ In (WApply t k v) os) /\ ~ In (WRemove k) os.
Lemma story_run T os c : story T os c -> em_run nval0 (map mop os) (em_new T) = Some (cn_map c) /\ Inv0 (cn_map c) /\ (nonempty (cn_map c) = true -> cn_flag c = true).
Proof.
  unfold story. intros St. destruct (conn_inv nval0 T os) as (c' & R & J). rewrite St in R. injection R as <-.
  split; [exact (j_run _ _ _ _ J)|]. split; [exact (j_inv _ _ _ _ J)|exact (j_flag _ _ _ _ J)].
Qed.
Lemma keys_new_gen {A} (x : subinfo) (e : A) (l : list (subinfo * A)) : aget x l = None -> aset x e l = l ++ [(x, e)].
Proof.
  induction l as [|[k v] l IH]; cbn; [reflexivity|]. destruct (eqb x k); [discriminate|]. intros G. rewrite IH by exact G. reflexivity.
Qed.
Lemma evict_sub (k : subinfo) limit l : forall (m : list (subinfo * mentry nval)) out v, aget k (snd (fst (em_evict limit l m out))) = Some v -> aget k m = Some v.
Proof.
  induction l as [|a l IH]; intros m out v; cbn; [auto|]. destruct (c_ts a <? limit)%Z; [|auto]. intros G. apply IH in G. rewrite aget_adel in G.
  destruct (eqb k (c_key a)); [discriminate|exact G].
Qed.
Lemma origin T os : forall m k v, em_run nval0 (map mop os) (em_new T) = Some m -> em_find k m = Some v ->
  exists h1 t h2, os = h1 ++ WApply t k v :: h2 /\ untouched k h2.
Proof.
  induction os as [|o os IH] using rev_ind; intros m k v R F.
  - cbn in R. injection R as <-. discriminate.
  - rewrite map_app, em_run_app in R. destruct (em_run nval0 (map mop os) (em_new T)) as [m0|] eqn:R0; [|discriminate].
    cbn [map em_run] in R. destruct (em_step nval0 (mop o) m0) as [m1|] eqn:S1; [|discriminate]. injection R as ->.
    assert (KEEP : em_find k m0 = Some v -> (forall t w, o <> WApply t k w) -> o <> WRemove k -> exists h1 t h2, os ++ [o] = h1 ++ WApply t k v :: h2 /\ untouched k h2).
    { intros F0 NA NR. destruct (IH m0 k v eq_refl F0) as (h1 & t & h2 & -> & U1 & U2). exists h1, t, (h2 ++ [o]). rewrite <- app_assoc. split; [reflexivity|]. split.
      - intros t' w I1. apply in_app_iff in I1. destruct I1 as [I1|[I1|[]]]; [apply (U1 _ _ I1)|apply (NA _ _ I1)].
      - intros I1. apply in_app_iff in I1. destruct I1 as [I1|[I1|[]]]; [apply (U2 I1)|apply (NR I1)]. }
    destruct o as [now k' v'|k'|now]; cbn [mop em_step] in S1.
    + assert (X : em_find k m = if eqb k k' then Some v' else em_find k m0).
      { clear -S1. unfold em_index in S1. destruct (aget k' (e_map m0)) as [x|] eqn:G.
        - unfold em_update_timestamp in S1. rewrite G in S1. destruct (find_cell (m_it x) (e_list m0)); [|discriminate]. injection S1 as <-.
          unfold em_find. cbn [e_map]. rewrite aget_aset. destruct (eqb k k'); reflexivity.
        - injection S1 as <-. unfold em_find, em_insert. cbn [e_map]. rewrite G. rewrite aget_aset. destruct (eqb k k') eqn:E; [reflexivity|].
          rewrite <- (keys_new_gen k' _ _ G). rewrite aget_aset, E. reflexivity. }
      rewrite X in F. destruct (eqb k k') eqn:E.
      * apply eqb_true in E. subst k'. injection F as ->. exists os, now, []. split; [reflexivity|]. split; [intros ? ? []|intros []].
      * apply KEEP; [exact F| |discriminate]. intros t w Q. injection Q as _ -> _. rewrite eqb_refl in E. discriminate.
    + assert (X : em_find k m = if eqb k k' then None else em_find k m0).
      { clear -S1. unfold em_erase in S1. destruct (aget k' (e_map m0)) as [x|] eqn:G.
        - destruct (find_cell (m_it x) (e_list m0)); [|discriminate]. injection S1 as <-.
          unfold em_find. cbn [e_map]. rewrite aget_adel. destruct (eqb k k'); reflexivity.
        - injection S1 as <-. destruct (eqb k k') eqn:E; [|reflexivity]. apply eqb_true in E. subst k'. unfold em_find. rewrite G. reflexivity. }
      rewrite X in F. destruct (eqb k k') eqn:E; [discriminate|]. apply KEEP; [exact F|discriminate|].
      intros Q. injection Q as ->. rewrite eqb_refl in E. discriminate.
    + apply KEEP; try discriminate. injection S1 as <-. unfold em_find, em_erase_expired in *.
      destruct (em_evict (now - e_timeout m0)%Z (e_list m0) (e_map m0) []) as [[l mm] out] eqn:EV. cbn [fst e_map] in F.
      destruct (aget k mm) as [x|] eqn:G; [|discriminate].
      pose proof (evict_sub k (now - e_timeout m0)%Z (e_list m0) (e_map m0) [] x) as Y. rewrite EV in Y. cbn [fst snd] in Y. rewrite (Y G). exact F.
Qed.

Lemma asc_times (os : list wcall) : forall t0, ascending (wtimes os) -> (forall t, In t (wtimes os) -> (t0 <= t)%Z) -> times_from t0 os.
Proof.
  induction os as [|[now k v|k|now] os IH]; intros t0 A L; cbn in *; [exact I| | |].
  - destruct A as [A1 A2]. split; [apply L; auto|]. apply IH; assumption.
  - apply IH; assumption.
  - destruct A as [A1 A2]. split; [apply L; auto|]. apply IH; assumption.
Qed.
Lemma asc_start (os : list wcall) : ascending (wtimes os) -> exists t0, times_from t0 os.
Proof.
  intros A. destruct (wtimes os) as [|t l] eqn:E.
  - exists 0%Z. apply asc_times; rewrite E; [exact I|intros ? []].
  - exists t. apply asc_times; rewrite E; [exact A|]. intros u [<-|I1]; [lia|]. destruct A as [A1 _]. apply A1, I1.
Qed.
Lemma alive T h1 t k v h2 c : story T (h1 ++ WApply t k v :: h2) c -> untouched k h2 -> ascending (wtimes (h1 ++ WApply t k v :: h2)) ->
  (forall now, In (WCheck now) h2 -> (now - T <= t)%Z) -> In (k, v) (em_contents (cn_map c)).
Proof.
  intros St (U1 & U2) A CH. destruct (story_run _ _ _ St) as (R & IV & _). apply contents_find; [exact IV|].
  destruct (asc_start _ A) as (t0 & TF). apply mop_clock in TF. pose proof (mop_no_insert (h1 ++ WApply t k v :: h2)) as NI.
  pose proof (mop_no_setexp (h1 ++ WApply t k v :: h2)) as NS. rewrite map_app in *. cbn [map mop] in *.
  destruct (alive_lemma nval0 (map mop h1) (map mop h2) t0 T k (fun _ => v) t NI TF NS) as (s & s1 & R1 & _ & F).
  - intros o I1. apply in_map_iff in I1. destruct I1 as ([n k' v'|k'|n] & <- & I1); cbn; [| |reflexivity].
    + destruct (eqb k k') eqn:E; [|reflexivity]. apply eqb_true in E. subst k'. exfalso. eapply U1, I1.
    + destruct (eqb k k') eqn:E; [|reflexivity]. apply eqb_true in E. subst k'. exfalso. apply U2, I1.
  - intros n I1. apply in_map_iff in I1. destruct I1 as ([n' k' v'|k'|n'] & E & I1); try discriminate. cbn in E. injection E as ->. apply CH, I1.
  - rewrite R in R1. injection R1 as <-. exact F.
Qed.
Lemma fresh T os now k v c : story T (os ++ [WCheck now]) c -> ascending (wtimes (os ++ [WCheck now])) -> In (k, v) (em_contents (cn_map c)) ->
  exists t w, In (WApply t k w) os /\ (now - T <= t)%Z.
Proof.
  intros St A I1. destruct (story_run _ _ _ St) as (R & IV & _). apply contents_find in I1; [|exact IV].
  destruct (asc_start _ A) as (t0 & TF). apply mop_clock in TF. rewrite map_app in *. cbn [map mop] in *.
  destruct (gone_lemma nval0 (map mop os) t0 T now (mop_no_insert os) TF (mop_no_setexp os)) as (s & R1 & F).
  rewrite R in R1. injection R1 as <-. destruct (F k v I1) as (h1 & t & f & h2 & E & _ & LE).
  destruct (map_split os h1 t k f h2 E) as (w1 & v' & w2 & -> & _). exists t, v'. split; [|exact LE]. apply in_or_app. right. left. reflexivity.
Qed.

(** ** Samples in the words of the specification *)
Lemma accept_iff c m : is_pub_cmd (sm_cmd m) = true \/ is_sub_cmd (sm_cmd m) = true ->
  ap_accept (ap_new (nc_network c) (nc_loopback c) (nc_group c) (nc_pid c)) m = true <-> hears c (sm_host m) (tp_hgname (sm_topic m)) (sm_pid m).
Proof.
  intros CM. assert (GN : ap_group_name m = tp_hgname (sm_topic m)).
  { unfold ap_group_name. destruct (sm_cmd m); destruct CM as [CM|CM]; try discriminate; reflexivity. }
  unfold ap_accept, ap_member, ap_same_process, hears. rewrite GN. cbn [ap_group ap_pid ap_loopback ap_network ap_new].
  set (g := match tp_hgname (sm_topic m) with [] => sm_host m | _ => tp_hgname (sm_topic m) end).
  assert (EG : (if is_nil (tp_hgname (sm_topic m)) then sm_host m else tp_hgname (sm_topic m)) = g).
  { unfold g. destruct (tp_hgname (sm_topic m)); reflexivity. }
  rewrite EG. clearbody g. clear EG GN CM.
  destruct (is_nil g || is_nil (nc_group c))%bool eqn:NN.
  - assert (N : ~ (g = nc_group c /\ g <> [])).
    { intros [-> H]. destruct (nc_group c); [congruence|discriminate]. }
    split; [intros E; right; auto|]. intros [(A & B & _)|(_ & E)]; [exfalso; auto|exact E].
  - apply orb_false_iff in NN. destruct NN as [N1 N2]. destruct (eqb g (nc_group c)) eqn:E; cbn [negb].
    + apply eqb_true in E. assert (NE : g <> []) by (destruct g; [discriminate|congruence]). split.
      * intros H. left. split; [exact E|]. split; [exact NE|]. apply orb_prop in H. destruct H as [H|H]; [left|right; exact H].
        apply negb_true_iff in H. apply Z.eqb_neq in H. exact H.
      * intros [(_ & _ & [H|H])|(H & _)]; [|rewrite H; apply orb_true_r|exfalso; auto].
        apply Z.eqb_neq in H. rewrite H. reflexivity.
    + apply eqb_false in E. split; [intros H; right; split; [intros [H1 _]; congruence|exact H]|].
      intros [(H & _)|(_ & H)]; [congruence|exact H].
Qed.
Lemma confirmed_iff host m : confirmed host m = true <-> confirms host m.
Proof.
  unfold confirmed, confirms. destruct (eqb (sm_host m) host) eqn:E; cbn [negb andb orb].
  - apply eqb_true in E. rewrite orb_false_r. split; [intros H; left; split; [exact E|lia]|]. intros [(_ & H)|(H & _)]; [lia|congruence].
  - apply eqb_false in E. split; [intros H; right; split; [exact E|lia]|]. intros [(H & _)|(_ & H)]; [congruence|lia].
Qed.
Lemma layers_iff l : forall a, let r := fold_left add_layer l a in
  let on ty := exists y, In y l /\ ly_type y = ty /\ (ly_enabled y = true \/ (ly_version y < 2)%Z) in
  (sl_udp r = true <-> sl_udp a = true \/ on tl_udp) /\ (sl_shm r = true <-> sl_shm a = true \/ on tl_shm) /\ (sl_tcp r = true <-> sl_tcp a = true \/ on tl_tcp).
Proof.
  induction l as [|y l IH]; intros a; cbn [fold_left].
  - repeat split; intros H; auto; destruct H as [H|(y & [] & _)]; exact H.
  - destruct (IH (add_layer a y)) as (A & B & C). cbv zeta.
    assert (X : forall ty, (exists z, In z (y :: l) /\ ly_type z = ty /\ (ly_enabled z = true \/ (ly_version z < 2)%Z)) <->
      (ly_type y = ty /\ (ly_enabled y || (ly_version y <? 2)%Z)%bool = true) \/ (exists z, In z l /\ ly_type z = ty /\ (ly_enabled z = true \/ (ly_version z < 2)%Z))).
    { intros ty. split.
      - intros (z & [<-|I1] & T & V); [left; split; [exact T|]|right; eauto]. apply orb_true_iff. destruct V as [V|V]; [auto|right; apply Z.ltb_lt, V].
      - intros [(T & V)|(z & I1 & T & V)]; [|exists z; auto with datatypes]. exists y. split; [left; reflexivity|]. split; [exact T|]. apply orb_true_iff in V.
        destruct V as [V|V]; [auto|right; apply Z.ltb_lt, V]. }
    rewrite A, B, C, !X. clear A B C X IH. unfold add_layer. destruct (ly_enabled y || (ly_version y <? 2)%Z)%bool.
    2: { repeat split; intros H; intuition congruence. }
    destruct (ly_type y); cbn; intuition (auto; try congruence).
Qed.
Lemma layers_offers m : offers (sm_topic m) (tp_dtype (sm_topic m), layers_of m).
Proof.
  unfold offers, offered, layers_of. cbn [fst snd]. destruct (layers_iff (tp_layers (sm_topic m)) (SubLayers false false false)) as (A & B & C). cbv zeta in A, B, C.
  cbn [sl_udp sl_shm sl_tcp] in A, B, C. split; [reflexivity|]. rewrite A, B, C. repeat split; intros H; intuition congruence.
Qed.

(** ** Results *)
Lemma reach_end ops s : reach ops s -> s = at_end ops. Proof. apply reach_iff. Qed.
Lemma end_reach ops : reach ops (at_end ops). Proof. apply reach_iff. reflexivity. Qed.
Lemma sane_app a b : sane (a ++ b) <-> sane a /\ sane b. Proof. apply Forall_app. Qed.
Lemma here_sane ops : sane ops -> (forall p q, aget p (nt_procs (at_end ops)) = Some q -> i32 (nc_pid (np_cfg q))) /\
  (forall p sd x c e, here (at_end ops) p sd x c e -> wf_topic (ne_rest e)).
Proof.
  induction ops as [|o ops IH] using rev_ind; intros S1.
  - split; [intros p q Q; discriminate|]. intros p sd x c e (q & Q & _). discriminate.
  - apply sane_app in S1. destruct S1 as [S1 S2]. destruct (IH S1) as [IP IT]. inversion S2 as [|a b S3 _]; subst. rewrite at_end_snoc.
    pose proof (at_end_good ops) as G. split.
    + intros p q Q. destruct (proc_back _ _ _ _ Q) as [(q0 & Q0)|(c & -> & -> & _)]; [|exact S3].
      destruct (proc_next o _ p q0 G Q0) as (q1 & Q1 & C1 & _). rewrite Q in Q1. injection Q1 as <-. rewrite C1. apply (IP p q0 Q0).
    + intros p sd x c e H. destruct (here_back o _ p sd x c e G H) as [(e0 & H0 & _ & _ & _ & [R|(r & -> & R)])|(n & i & r & -> & -> & _)].
      * rewrite R. apply (IT _ _ _ _ _ H0).
      * rewrite R. exact S3.
      * exact S3.
Qed.
Lemma to_i32_range z : i32 (to_i32 z).
Proof. unfold i32, to_i32. cbv zeta. assert (0 <= z mod 2 ^ 32 < 2 ^ 32)%Z by (apply Z.mod_pos_bound; lia). destruct (z mod 2 ^ 32 <? 2 ^ 31)%Z eqn:E; lia. Qed.
Lemma wf_rest : wf_process process0 /\ wf_service service0 /\ wf_client client0.
Proof. repeat split; try constructor; try (unfold i32, i64, u32; cbn; lia); discriminate. Qed.
Lemma wf_plain c : c = bct_reg_publisher \/ c = bct_reg_subscriber \/ c = bct_unreg_publisher \/ c = bct_unreg_subscriber -> wf_cmd c.
Proof. intros H z E. destruct H as [H|[H|[H|H]]]; congruence. Qed.
Lemma born_back ops m : sane ops -> born ops m -> (len (ser_sample m) < 2 ^ 32)%Z -> de_sample (ser_sample m) = Ok m.
Proof.
  intros S1 (a & b & p & sd & x & c & e & -> & H & EM) L. apply sane_app in S1. destruct S1 as [S1 _].
  destruct (here_sane a S1) as [IP IT]. pose proof (IT _ _ _ _ _ H) as WT. destruct H as (q & Q & EC & _). pose proof (IP p q Q) as WP. rewrite EC in WP.
  destruct wf_rest as (W1 & W2 & W3). assert (Z0 : i32 0) by (unfold i32; lia). assert (Z1 : i64 0) by (unfold i64; lia).
  destruct WT as (T1 & T2 & T3 & T4 & T5 & T6 & T7 & T8 & T9 & T10).
  rewrite sample_round; [| |exact L].
  - destruct EM as [->| ->]; destruct sd; reflexivity.
  - destruct EM as [->| ->].
    + destruct sd; unfold wf_sample; cbn [sm_cmd sm_pid sm_process sm_service sm_client sm_topic n_reg];
        (split; [apply wf_plain; auto|]); (split; [exact WP|]); (split; [exact W1|]); (split; [exact W2|]); (split; [exact W3|]);
        unfold wf_topic, n_topic; cbn; repeat (split; [first [assumption|apply to_i32_range]|]); assumption.
    + destruct sd; unfold wf_sample; cbn [sm_cmd sm_pid sm_process sm_service sm_client sm_topic n_unreg];
        (split; [apply wf_plain; auto|]); (split; [exact WP|]); (split; [exact W1|]); (split; [exact W2|]); (split; [exact W3|]);
        unfold wf_topic; cbn; repeat (split; [first [assumption|constructor]|]); constructor.
Qed.
Lemma sent_back ops k m : sane ops -> fits (at_end ops) -> nth_error (nt_sent (at_end ops)) k = Some m -> de_sample (ser_sample m) = Ok m /\ born ops m.
Proof.
  intros S1 F N. apply nth_error_In in N. pose proof (proj1 (all_born ops) m N) as B. split; [|exact B]. apply (born_back ops); auto.
Qed.
Lemma defined_lemma ops : exists s, reach ops s /\ forall p q, aget p (nt_procs s) = Some q -> np_rx q = Listening.
Proof. exists (at_end ops). split; [apply end_reach|]. intros p q Q. apply (pg_rx _ (at_end_good ops p q Q)). Qed.

Lemma effect_apply c sd now m t k v : effect c sd now m = Some (WApply t k v) ->
  t = now /\ sm_cmd m = reg_cmd (other sd) /\ k = info_of m /\ v = (tp_dtype (sm_topic m), layers_of m) /\
  hears c (sm_host m) (tp_hgname (sm_topic m)) (sm_pid m) /\ (sd = SubSide -> confirms (nc_host c) m).
Proof.
  unfold effect. destruct (ap_accept _ m) eqn:A; cbn [andb]; [|discriminate]. destruct (negb _); [|discriminate].
  destruct sd, (sm_cmd m) eqn:CM; try discriminate.
  - intros E. injection E as <- <- <-. repeat split; try reflexivity; [|discriminate]. apply accept_iff; [rewrite CM; auto|exact A].
  - destruct (confirmed (nc_host c) m) eqn:CF; [|discriminate]. intros E. injection E as <- <- <-. repeat split; try reflexivity.
    + apply accept_iff; [rewrite CM; auto|exact A].
    + intros _. apply confirmed_iff, CF.
Qed.
Lemma effect_reg c sd now m : sm_cmd m = reg_cmd (other sd) -> tp_tname (sm_topic m) <> [] ->
  hears c (sm_host m) (tp_hgname (sm_topic m)) (sm_pid m) -> (sd = SubSide -> confirms (nc_host c) m) ->
  effect c sd now m = Some (WApply now (info_of m) (tp_dtype (sm_topic m), layers_of m)).
Proof.
  intros CM NE H CF. apply (accept_iff c m) in H; [|rewrite CM; destruct sd; cbn; auto]. unfold effect. rewrite H.
  assert (N : is_nil (tp_tname (sm_topic m)) = false) by (destruct (tp_tname (sm_topic m)); [congruence|reflexivity]). rewrite N, CM. cbn [andb negb].
  destruct sd; cbn [other reg_cmd]; [reflexivity|]. rewrite (proj2 (confirmed_iff _ _) (CF eq_refl)). reflexivity.
Qed.
Lemma effect_unreg c sd now m : sm_cmd m = unreg_cmd (other sd) -> tp_tname (sm_topic m) <> [] ->
  hears c (sm_host m) (tp_hgname (sm_topic m)) (sm_pid m) -> effect c sd now m = Some (WRemove (info_of m)).
Proof.
  intros CM NE H. apply (accept_iff c m) in H; [|rewrite CM; destruct sd; cbn; auto]. unfold effect. rewrite H.
  assert (N : is_nil (tp_tname (sm_topic m)) = false) by (destruct (tp_tname (sm_topic m)); [congruence|reflexivity]). rewrite N, CM. cbn [andb negb].
  destruct sd; reflexivity.
Qed.
Lemma effect_remove c sd now m k : effect c sd now m = Some (WRemove k) -> sm_cmd m = unreg_cmd (other sd) /\ k = info_of m.
Proof.
  unfold effect. destruct (_ && _)%bool; [|discriminate]. destruct sd, (sm_cmd m); try discriminate; intros E; try (injection E as <-; auto).
  destruct (confirmed _ _); discriminate.
Qed.
Lemma effect_check c sd now m t : effect c sd now m <> Some (WCheck t).
Proof. unfold effect. destruct (_ && _)%bool; [|discriminate]. destruct sd, (sm_cmd m); try discriminate. destruct (confirmed _ _); discriminate. Qed.

(** A call of an object and the operation behind it, once datagrams are read back correctly. *)
Lemma cause_inv ops p c sd e o w : sane ops -> fits (at_end ops) -> cause o (nt_sent (at_end ops)) p c sd e = Some w ->
  (exists now, o = NCollect p now /\ w = WCheck now) \/
  (exists i now m, o = NDeliver p i now /\ nth_error (nt_sent (at_end ops)) i = Some m /\ tp_tname (sm_topic m) = ne_name e /\ born ops m /\ effect c sd now m = Some w).
Proof.
  intros S1 F C. destruct (cause_other o (nt_sent (at_end ops)) p c sd e) as [N|[(now & -> & N)|(k & now & m & m' & -> & NT & D & TN & N)]]; rewrite N in C.
  - discriminate.
  - injection C as <-. left. eauto.
  - right. destruct (sent_back ops k m S1 F NT) as [D' B]. rewrite D in D'. injection D' as ->. exists k, now, m. auto.
Qed.
Lemma well_of ops p sd x c e : here (at_end ops) p sd x c e -> well (nc_timeout c) e.
Proof. intros (q & Q & EC & GE). pose proof (hg_story _ _ (pg_half _ (at_end_good ops p q Q) sd) x e (aget_in _ _ _ GE)) as W. rewrite EC in W. exact W. Qed.
Lemma lists_find T e k v : well T e -> lists e k v <-> em_find k (cn_map (ne_conn e)) = Some v.
Proof. intros (os & St). apply contents_find. apply (story_run T os _ St). Qed.

Lemma loc_pos host e : (0 < n_loc host e)%Z <-> exists k v, lists e k v /\ si_host k = host.
Proof.
  unfold n_loc, lists. split.
  - intros H. destruct (filter _ _) as [|[k v] l] eqn:E; [cbn in H; lia|].
    assert (I1 : In (k, v) (filter (fun x => eqb (si_host (fst x)) host) (em_contents (cn_map (ne_conn e))))) by (rewrite E; left; reflexivity).
    apply filter_In in I1. destruct I1 as [I1 I2]. apply eqb_true in I2. eauto.
  - intros (k & v & I1 & E). assert (I2 : In (k, v) (filter (fun x => eqb (si_host (fst x)) host) (em_contents (cn_map (ne_conn e))))).
    { apply filter_In. split; [exact I1|]. cbn. rewrite E. apply eqb_refl. }
    destruct (filter _ _); [destruct I2|cbn; lia].
Qed.
Lemma filter_split {A} (f : A -> bool) l : length l = length (filter f l) + length (filter (fun x => negb (f x)) l).
Proof. induction l as [|x l IH]; cbn; [reflexivity|]. destruct (f x); cbn; lia. Qed.
Lemma ext_pos host e : (0 < n_ext host e)%Z <-> exists k v, lists e k v /\ si_host k <> host.
Proof.
  unfold n_ext, n_loc, lists. rewrite (filter_split (fun x => eqb (si_host (fst x)) host) (em_contents (cn_map (ne_conn e)))) at 1.
  set (l := filter (fun x => negb (eqb (si_host (fst x)) host)) (em_contents (cn_map (ne_conn e)))).
  assert (X : (0 < length l)%nat <-> exists k v, In (k, v) (em_contents (cn_map (ne_conn e))) /\ si_host k <> host).
  { unfold l. split.
    - intros H. destruct (filter _ _) as [|[k v] l'] eqn:E; [cbn in H; lia|].
      assert (I1 : In (k, v) (filter (fun x => negb (eqb (si_host (fst x)) host)) (em_contents (cn_map (ne_conn e))))) by (rewrite E; left; reflexivity).
      apply filter_In in I1. destruct I1 as [I1 I2]. apply negb_true_iff, eqb_false in I2. eauto.
    - intros (k & v & I1 & E). assert (I2 : In (k, v) (filter (fun x => negb (eqb (si_host (fst x)) host)) (em_contents (cn_map (ne_conn e))))).
      { apply filter_In. split; [exact I1|]. cbn. rewrite neq_eqb by exact E. reflexivity. }
      destruct (filter _ _); [destruct I2|cbn; lia]. }
  rewrite <- X. lia.
Qed.
Lemma i32_pos z : (0 <= z)%Z -> (0 < to_i32 z)%Z -> (0 < z)%Z.
Proof. intros N H. destruct (Z.eq_dec z 0) as [->|]; [vm_compute in H; discriminate|lia]. Qed.
Lemma i32_small z : (0 <= z < 2 ^ 31)%Z -> to_i32 z = z.
Proof. intros H. unfold to_i32. cbv zeta. rewrite Z.mod_small by lia. destruct (z <? 2 ^ 31)%Z eqn:E; lia. Qed.
Lemma n_ext_nonneg host e : (0 <= n_ext host e)%Z.
Proof. unfold n_ext, n_loc. rewrite (filter_split (fun x => eqb (si_host (fst x)) host) (em_contents (cn_map (ne_conn e)))) at 1. lia. Qed.
Lemma n_loc_nonneg host e : (0 <= n_loc host e)%Z. Proof. unfold n_loc. lia. Qed.
Lemma confirms_some host c e : confirms host (n_reg c PubSide e) -> counts_some c e host.
Proof.
  unfold confirms. cbn. intros [(E & H)|(E & H)].
  - apply i32_pos in H; [|apply n_loc_nonneg]. apply loc_pos in H. destruct H as (k & v & L & HK). exists k, v. split; [exact L|]. tauto.
  - apply i32_pos in H; [|apply n_ext_nonneg]. apply ext_pos in H. destruct H as (k & v & L & HK). exists k, v. split; [exact L|]. tauto.
Qed.
Lemma some_confirms host c e : few e -> counts_some c e host -> confirms host (n_reg c PubSide e).
Proof.
  intros FW (k & v & L & HK). unfold confirms, few in *. cbn.
  assert (B : (n_loc (nc_host c) e + n_ext (nc_host c) e < 2 ^ 31)%Z) by (unfold n_ext; lia).
  pose proof (n_loc_nonneg (nc_host c) e). pose proof (n_ext_nonneg (nc_host c) e).
  rewrite !i32_small by lia. destruct (eq_dec (nc_host c) host) as [E|E].
  - left. split; [exact E|]. apply loc_pos. exists k, v. tauto.
  - right. split; [exact E|]. apply ext_pos. exists k, v. tauto.
Qed.

Lemma listed_origin ops p sd x c e k v : sane ops -> fits (at_end ops) -> here (at_end ops) p sd x c e -> lists e k v ->
  exists ops1 ops2 q y c' e', ops = ops1 ++ ops2 /\ here (at_end ops1) q (other sd) y c' e' /\ k = key c' e' /\ ne_name e' = ne_name e /\
    offers (ne_rest e') v /\ hears_from c c' /\ (sd = SubSide -> confirms (nc_host c) (n_reg c' PubSide e')).
Proof.
  intros S1 F H L. pose proof (proj1 (lists_find _ _ _ _ (well_of _ _ _ _ _ _ H)) L) as FD.
  destruct (told ops p sd x c e H) as (os & St & _ & W). destruct (story_run _ _ _ St) as (R & _).
  destruct (origin _ _ _ k v R FD) as (h1 & t & h2 & -> & _).
  destruct (W (WApply t k v)) as (o & _ & C); [apply in_or_app; right; left; reflexivity|].
  destruct (cause_inv ops p c sd e o _ S1 F C) as [(now & _ & E)|(i & now & m & _ & _ & TN & B & EF)]; [discriminate|].
  destruct (effect_apply _ _ _ _ _ _ _ EF) as (_ & CM & -> & -> & HR & CF).
  destruct B as (a & b & q & sd' & y & c' & e' & -> & H' & EM). exists a, b, q, y, c', e'.
  assert (X : m = n_reg c' (other sd) e' /\ sd' = other sd).
  { destruct EM as [->| ->]; destruct sd, sd'; cbn in CM; try discriminate; auto. }
  destruct X as [-> ->]. split; [reflexivity|]. split; [exact H'|]. split; [destruct sd; reflexivity|]. split; [destruct sd; exact TN|].
  split; [|split; [destruct sd; exact HR|intros ->; exact (CF eq_refl)]].
  pose proof (layers_offers (n_reg c' (other sd) e')) as O. destruct sd; exact O.
Qed.
Lemma fits_app a b : fits (at_end (a ++ b)) -> fits (at_end a).
Proof. intros F m I1. apply F. destruct (sent_more a b) as (out & E). rewrite E. apply in_or_app. auto. Qed.
Lemma origin_lemma ops s p sd x c e k v : sane ops -> reach ops s -> fits s -> here s p sd x c e -> lists e k v ->
  exists ops1 ops2 s1 q y c' e', ops = ops1 ++ ops2 /\ reach ops1 s1 /\ here s1 q (other sd) y c' e' /\ k = key c' e' /\ ne_name e' = ne_name e /\
    offers (ne_rest e') v /\ hears_from c c' /\ (sd = SubSide -> counts_some c' e' (nc_host c)).
Proof.
  intros S1 R F H L. apply reach_end in R. subst s. destruct (listed_origin ops p sd x c e k v S1 F H L) as (a & b & q & y & c' & e' & E & H' & K & N & O & HR & CF).
  exists a, b, (at_end a), q, y, c', e'. repeat (split; [first [assumption|apply end_reach]|]). intros X. apply confirms_some, CF, X.
Qed.
Lemma chain_lemma ops s p x c e k v : sane ops -> reach ops s -> fits s -> here s p SubSide x c e -> lists e k v ->
  exists ops1 ops2 s1 q y c' e', ops = ops1 ++ ops2 /\ reach ops1 s1 /\ here s1 q SubSide y c' e' /\ ne_name e' = ne_name e /\
    (nc_host c' = si_host k <-> nc_host c = si_host k).
Proof.
  intros S1 R F H L. apply reach_end in R. subst s. destruct (listed_origin ops p SubSide x c e k v S1 F H L) as (a & b & q & y & c' & e' & -> & H' & -> & N & O & HR & CF).
  destruct (confirms_some _ _ _ (CF eq_refl)) as (k2 & v2 & L2 & HK). apply sane_app in S1. destruct S1 as [S1 _].
  destruct (listed_origin a q PubSide y c' e' k2 v2 S1 (fits_app _ _ F) H' L2) as (a1 & a2 & q2 & z & c2 & e2 & -> & H2 & -> & N2 & _).
  exists a1, (a2 ++ b), (at_end a1), q2, z, c2, e2. rewrite app_assoc. split; [reflexivity|]. split; [apply end_reach|]. split; [exact H2|]. split; [congruence|].
  cbn in *. rewrite HK. split; congruence.
Qed.

Lemma announces_reg c sd e : announces c sd e (n_reg c sd e).
Proof. unfold announces, about. destruct sd; cbn; auto 10. Qed.
Lemma withdraws_unreg c sd e : withdraws c sd e (n_unreg c sd e).
Proof. unfold withdraws, about. destruct sd; cbn; auto 10. Qed.
Lemma cycle_end ops p sd x c e now : here (at_end ops) p sd x c e ->
  exists e' i, here (at_end (ops ++ [NCollect p now])) p sd x c e' /\ ne_name e' = ne_name e /\ ne_id e' = ne_id e /\ ne_rest e' = ne_rest e /\
    length (nt_sent (at_end ops)) <= i /\ nth_error (nt_sent (at_end (ops ++ [NCollect p now]))) i = Some (n_reg c sd e').
Proof.
  intros (q & Q & EC & GE). rewrite at_end_snoc. cbn [next]. pose proof (at_end_good ops) as G.
  set (f := fun q => (collect_p now q, samples_of (np_cfg q) SubSide (checked now (np_sub q)) ++ samples_of (np_cfg q) PubSide (checked now (np_pub q)))).
  destruct (hg_story _ _ (pg_half _ (G p q Q) sd) x e (aget_in _ _ _ GE)) as (os & St).
  destruct (call_spec _ os (WCheck now) e St) as (_ & _ & C1 & C2 & C3).
  assert (A : aget x (hf_ends (checked now (np_half sd q))) = Some (call (WCheck now) e)) by (unfold checked; rewrite aget_touch, GE; reflexivity).
  assert (IN : In (n_reg c sd (call (WCheck now) e)) (snd (f q))).
  { unfold f. cbn [snd]. rewrite EC. apply in_or_app. apply aget_in in A. destruct sd; [right|left]; unfold samples_of; apply in_map_iff; exists (x, call (WCheck now) e); auto. }
  destruct (In_nth_error _ _ IN) as (j & NJ). exists (call (WCheck now) e), (length (nt_sent (at_end ops)) + j). split.
  - exists (collect_p now q). rewrite proc_at, Q, Nat.eqb_refl. split; [reflexivity|]. split; [exact EC|]. destruct sd; exact A.
  - repeat (split; [assumption|]). split; [lia|]. unfold at_proc. rewrite Q. cbn [nt_sent]. rewrite nth_error_app2 by lia.
    replace (length (nt_sent (at_end ops)) + j - length (nt_sent (at_end ops))) with j by lia. exact NJ.
Qed.
Lemma cycle_lemma ops s s' p sd x c e now : reach ops s -> here s p sd x c e -> reach (ops ++ [NCollect p now]) s' ->
  exists e' i m, here s' p sd x c e' /\ ne_name e' = ne_name e /\ ne_id e' = ne_id e /\ ne_rest e' = ne_rest e /\
    length (nt_sent s) <= i /\ nth_error (nt_sent s') i = Some m /\ announces c sd e' m /\
    (sd = PubSide -> few e' -> forall host, confirms host m <-> counts_some c e' host).
Proof.
  intros R H R'. apply reach_end in R, R'. subst s s'. destruct (cycle_end ops p sd x c e now H) as (e' & i & H' & N1 & N2 & N3 & LE & NT).
  exists e', i, (n_reg c sd e'). repeat (split; [first [assumption|apply announces_reg]|]). intros -> FW host. split; [apply confirms_some|apply some_confirms, FW].
Qed.
Lemma sent_stays ops1 ops2 i m : nth_error (nt_sent (at_end ops1)) i = Some m -> nth_error (nt_sent (at_end (ops1 ++ ops2))) i = Some m.
Proof.
  intros N. destruct (sent_more ops1 ops2) as (out & E). rewrite E. rewrite nth_error_app1; [exact N|]. apply nth_error_Some. congruence.
Qed.
Lemma cause_deliver ops p c sd e i now m : sane ops -> fits (at_end ops) -> nth_error (nt_sent (at_end ops)) i = Some m ->
  tp_tname (sm_topic m) = ne_name e -> cause (NDeliver p i now) (nt_sent (at_end ops)) p c sd e = effect c sd now m.
Proof.
  intros S1 F N T. cbn [cause]. rewrite Nat.eqb_refl, N. rewrite (proj1 (sent_back ops i m S1 F N)), T, eqb_refl. reflexivity.
Qed.
Lemma timed_told ops p sd x c e : here (at_end ops) p sd x c e -> exists os, story (nc_timeout c) os (ne_conn e) /\ timed p ops os.
Proof. intros H. destruct (told ops p sd x c e H) as (os & St & T & _). eauto. Qed.
Lemma step_call ops o p sd x c e w os : here (at_end ops) p sd x c e -> story (nc_timeout c) os (ne_conn e) -> timed p ops os -> o <> NDestroy p sd x ->
  cause o (nt_sent (at_end ops)) p c sd e = Some w ->
  exists e', here (at_end (ops ++ [o])) p sd x c e' /\ ne_name e' = ne_name e /\ ne_id e' = ne_id e /\
    story (nc_timeout c) (os ++ [w]) (ne_conn e') /\ timed p (ops ++ [o]) (os ++ [w]).
Proof.
  intros H St T ND C. destruct (here_fwd o _ p sd x c e (at_end_good ops) H ND) as (e' & H' & M).
  destruct (story_step _ os o _ p c sd x e e' St M) as (os' & St' & W & L).
  assert (E : os' = [w]). { destruct os' as [|a [|b os']]; [|f_equal|cbn in L; lia]. - exfalso. apply (proj2 (W w) C). - pose proof (proj1 (W a) (or_introl eq_refl)). congruence. }
  subst os'. exists e'. rewrite at_end_snoc. split; [exact H'|]. pose proof M as (MN & MI & _). split; [congruence|]. split; [congruence|]. split; [exact St'|].
  exact (timed_step p ops os o _ c sd e [w] T W L).
Qed.
Lemma info_key c sd e m : announces c sd e m -> info_of m = key c e.
Proof. intros (_ & (A & B & C & _) & _). unfold info_of, key. congruence. Qed.

(** Delivered, and then nothing happens that could end it. *)
Lemma stays_end ops1 ops2 p sd x c e i t m : sane (ops1 ++ NDeliver p i t :: ops2) -> fits (at_end (ops1 ++ NDeliver p i t :: ops2)) ->
  here (at_end ops1) p sd x c e -> nth_error (nt_sent (at_end ops1)) i = Some m -> sm_cmd m = reg_cmd (other sd) -> tp_tname (sm_topic m) = ne_name e -> ne_name e <> [] ->
  hears c (sm_host m) (tp_hgname (sm_topic m)) (sm_pid m) -> (sd = SubSide -> confirms (nc_host c) m) ->
  steady p (ops1 ++ NDeliver p i t :: ops2) -> ~ In (NDestroy p sd x) ops2 ->
  (forall now, In (NCollect p now) ops2 -> (now - nc_timeout c <= t)%Z) ->
  (forall j now m', In (NDeliver p j now) ops2 -> nth_error (nt_sent (at_end (ops1 ++ NDeliver p i t :: ops2))) j = Some m' ->
     sm_cmd m' = unreg_cmd (other sd) -> tp_tname (sm_topic m') = ne_name e -> info_of m' <> info_of m) ->
  exists e' v, here (at_end (ops1 ++ NDeliver p i t :: ops2)) p sd x c e' /\ ne_name e' = ne_name e /\ ne_id e' = ne_id e /\ lists e' (info_of m) v /\
    ((forall j now, ~ In (NDeliver p j now) ops2) -> offers (sm_topic m) v).
Proof.
  intros S1 F H NT CM TN NE HR CF SD ND CH NW. set (k := info_of m).
  destruct (timed_told _ _ _ _ _ _ H) as (os & St & T).
  pose proof (proj1 (sane_app _ _) S1) as [SA SB].
  assert (C : cause (NDeliver p i t) (nt_sent (at_end ops1)) p c sd e = Some (WApply t k (tp_dtype (sm_topic m), layers_of m))).
  { rewrite (cause_deliver ops1 p c sd e i t m SA (fits_app _ _ F) NT TN). apply effect_reg; auto. rewrite TN. exact NE. }
  destruct (step_call ops1 (NDeliver p i t) p sd x c e _ os H St T ltac:(discriminate) C) as (e1 & H1 & N1 & I1 & St1 & T1).
  destruct (follow (ops1 ++ [NDeliver p i t]) ops2 p sd x c e1 _ H1 St1 T1 ND) as (e' & os2 & H' & N' & I' & St' & T' & W).
  rewrite <- app_assoc in H', T', W. cbn [app] in H', T', W. destruct (T' SD) as (A & _). rewrite <- app_assoc in St', A. cbn [app] in St', A.
  (* the calls since then *)
  assert (W2 : forall w, In w os2 -> (exists now, In (NCollect p now) ops2 /\ w = WCheck now) \/
    (exists j now m', In (NDeliver p j now) ops2 /\ nth_error (nt_sent (at_end (ops1 ++ NDeliver p i t :: ops2))) j = Some m' /\ tp_tname (sm_topic m') = ne_name e /\ effect c sd now m' = Some w)).
  { intros w I2. destruct (W w I2) as (o & I3 & C3). destruct (cause_inv _ p c sd e1 o w S1 F C3) as [(now & -> & ->)|(j & now & m' & -> & NJ & TJ & _ & EF)].
    - left. eauto.
    - right. exists j, now, m'. rewrite N1 in TJ. auto. }
  assert (W3 : forall now, In (WCheck now) os2 -> In (NCollect p now) ops2).
  { intros now I2. destruct (W2 _ I2) as [(n & I3 & E)|(j & n & m' & _ & _ & _ & EF)]; [injection E as ->; exact I3|]. exfalso. exact (effect_check _ _ _ _ _ EF). }
  assert (W4 : ~ In (WRemove k) os2).
  { intros I2. destruct (W2 _ I2) as [(n & I3 & E)|(j & n & m' & I3 & NJ & TJ & EF)]; [discriminate|]. destruct (effect_remove _ _ _ _ _ EF) as (CR & EK).
    apply (NW j n m' I3 NJ CR TJ). symmetry. exact EK. }
  (* the last announcement *)
  assert (LAST : forall l, (forall w, In w l -> In w os2) -> exists h1 t' v h2, os ++ WApply t k (tp_dtype (sm_topic m), layers_of m) :: l = h1 ++ WApply t' k v :: h2 /\ untouched k h2 /\
     (forall w, In w h2 -> In w l) /\ (t' = t \/ In (WApply t' k v) l)).
  { induction l as [|w l IH] using rev_ind; intros SUB.
    - exists os, t, (tp_dtype (sm_topic m), layers_of m), []. split; [reflexivity|]. split; [split; [intros ? ? []|intros []]|]. split; [intros ? []|auto].
    - destruct (IH ltac:(intros w0 I0; apply SUB, in_or_app; auto)) as (h1 & t' & v & h2 & E & (U1 & U2) & SB2 & OR).
      rewrite app_comm_cons, app_assoc, E.
      assert (KEEP : (forall t0 v0, w <> WApply t0 k v0) -> exists h1' t'' v' h2', (h1 ++ WApply t' k v :: h2) ++ [w] = h1' ++ WApply t'' k v' :: h2' /\ untouched k h2' /\
         (forall w0, In w0 h2' -> In w0 (l ++ [w])) /\ (t'' = t \/ In (WApply t'' k v') (l ++ [w]))).
      { intros NA. exists h1, t', v, (h2 ++ [w]). rewrite <- app_assoc. split; [reflexivity|]. split; [split|split].
        - intros t0 v0 I0. apply in_app_iff in I0. destruct I0 as [I0|[I0|[]]]; [apply (U1 _ _ I0)|apply (NA _ _ I0)].
        - intros I0. apply in_app_iff in I0. destruct I0 as [I0|[I0|[]]]; [apply (U2 I0)|]. subst w. apply W4, SUB, in_or_app. right. left. reflexivity.
        - intros w0 I0. apply in_app_iff in I0. apply in_or_app. destruct I0 as [I0|I0]; [left; apply SB2, I0|right; exact I0].
        - destruct OR as [OR|OR]; [auto|right; apply in_or_app; auto]. }
      destruct w as [n k' v'|k'|n]; try (apply KEEP; discriminate).
      destruct (eq_dec k' k) as [->|NK]; [|apply KEEP; intros t0 v0 Q; injection Q; congruence].
      exists (h1 ++ WApply t' k v :: h2), n, v', []. split; [reflexivity|]. split; [split; [intros ? ? []|intros []]|]. split; [intros ? []|right; apply in_or_app; right; left; reflexivity]. }
  destruct (LAST os2 ltac:(auto)) as (h1 & t' & v & h2 & E & U & SUB & OR). rewrite E in St', A.
  assert (TT : (t <= t')%Z).
  { destruct OR as [->|I2]; [lia|]. rewrite <- E in A. rewrite wtimes_app in A. apply ascending_app in A. destruct A as (_ & A & _). cbn in A. destruct A as (A & _). apply A.
    apply in_flat_map. exists (WApply t' k v). split; [exact I2|left; reflexivity]. }
  assert (L : lists e' k v).
  { apply (alive _ _ _ _ _ _ _ St' U A). intros now I2. pose proof (CH now (W3 now (SUB _ I2))). lia. }
  exists e', v. split; [exact H'|]. split; [congruence|]. split; [congruence|]. split; [exact L|].
  intros NDL. assert (EV : forall w, In w os2 -> exists n, w = WCheck n).
  { intros w I2. destruct (W2 w I2) as [(n & _ & ->)|(j & n & m' & I3 & _)]; [eauto|]. exfalso. apply (NDL _ _ I3). }
  assert (X : v = (tp_dtype (sm_topic m), layers_of m)).
  { destruct (LAST [] ltac:(intros ? [])) as (g1 & t1 & v1 & g2 & E1 & U1 & SUB1 & OR1).
    assert (Y : forall (l : list wcall) (a : wcall) os0 h1 t' v h2, (forall w, In w l -> exists n, w = WCheck n) -> os0 ++ a :: l = h1 ++ WApply t' k v :: h2 -> untouched k h2 -> (exists ta va, a = WApply ta k va) -> a = WApply t' k v).
    { clear. intros l a os0 h1 t' v h2 EV E (U1 & U2) (ta & va & ->).
      destruct (Nat.lt_trichotomy (length os0) (length h1)) as [LT|[EQ|GT]].
      - exfalso. assert (I1 : In (WApply t' k v) l).
        { apply (f_equal (skipn (length os0))) in E. rewrite skipn_app, skipn_all, Nat.sub_diag in E. cbn [app skipn] in E.
          rewrite skipn_app in E. replace (length os0 - length h1) with 0 in E by lia. cbn [skipn] in E.
          destruct (skipn (length os0) h1) as [|b h] eqn:SK; [apply (f_equal (@length wcall)) in SK; rewrite skipn_length in SK; cbn in SK; lia|].
          cbn in E. injection E as _ E2. rewrite E2. apply in_or_app. right. left. reflexivity. }
        destruct (EV _ I1) as (n & Q). discriminate.
      - apply (f_equal (skipn (length os0))) in E. rewrite skipn_app, skipn_all, Nat.sub_diag in E. rewrite EQ in E. rewrite skipn_app, skipn_all, Nat.sub_diag in E. cbn in E. congruence.
      - exfalso. assert (I1 : In (WApply ta k va) h2).
        { apply (f_equal (skipn (S (length h1)))) in E. rewrite skipn_app in E. replace (S (length h1) - length os0) with 0 in E by lia. rewrite skipn_O in E.
          rewrite (skipn_app (S (length h1)) h1) in E. rewrite (skipn_all2 h1) in E by lia. replace (S (length h1) - length h1) with 1 in E by lia. cbn [app skipn] in E.
          rewrite <- E. apply in_or_app. right. left. reflexivity. }
        apply (U1 _ _ I1). }
    pose proof (Y os2 _ os h1 t' v h2 EV E U ltac:(eauto)) as Z. congruence. }
  rewrite X. apply layers_offers.
Qed.
Lemma stays_lemma ops1 s1 ops2 s p sd x c e i t m : reach ops1 s1 -> reach (ops1 ++ NDeliver p i t :: ops2) s -> sane (ops1 ++ NDeliver p i t :: ops2) -> fits s ->
  here s1 p sd x c e -> nth_error (nt_sent s1) i = Some m -> sm_cmd m = reg_cmd (other sd) -> tp_tname (sm_topic m) = ne_name e -> ne_name e <> [] ->
  hears c (sm_host m) (tp_hgname (sm_topic m)) (sm_pid m) -> (sd = SubSide -> confirms (nc_host c) m) ->
  steady p (ops1 ++ NDeliver p i t :: ops2) -> ~ In (NDestroy p sd x) ops2 ->
  (forall now, In (NCollect p now) ops2 -> (now - nc_timeout c <= t)%Z) ->
  (forall j now m', In (NDeliver p j now) ops2 -> nth_error (nt_sent s) j = Some m' ->
     sm_cmd m' = unreg_cmd (other sd) -> tp_tname (sm_topic m') = ne_name e -> info_of m' <> info_of m) ->
  exists e' v, here s p sd x c e' /\ ne_name e' = ne_name e /\ ne_id e' = ne_id e /\ lists e' (info_of m) v /\
    ((forall j now, ~ In (NDeliver p j now) ops2) -> offers (sm_topic m) v).
Proof. intros R1 R. apply reach_end in R1, R. subst s1 s. apply stays_end. Qed.

Lemma silence_lemma ops s p sd x c e now k v : sane (ops ++ [NCollect p now]) -> reach (ops ++ [NCollect p now]) s -> fits s -> steady p (ops ++ [NCollect p now]) ->
  here s p sd x c e -> lists e k v ->
  exists i t m, In (NDeliver p i t) ops /\ (now - nc_timeout c <= t)%Z /\ nth_error (nt_sent s) i = Some m /\
    sm_cmd m = reg_cmd (other sd) /\ tp_tname (sm_topic m) = ne_name e /\ k = info_of m.
Proof.
  intros S1 R F SD H L. apply reach_end in R. subst s.
  pose proof H as H0. rewrite at_end_snoc in H0. destruct (here_back _ _ p sd x c e (at_end_good ops) H0) as [(e0 & H1 & M)|(n & i & r & Q & _)]; [|discriminate].
  destruct (told ops p sd x c e0 H1) as (os & St & T & W).
  assert (C : cause (NCollect p now) (nt_sent (at_end ops)) p c sd e0 = Some (WCheck now)) by (cbn; rewrite Nat.eqb_refl; reflexivity).
  destruct (step_call ops (NCollect p now) p sd x c e0 _ os H1 St T ltac:(discriminate) C) as (e' & H' & N' & I' & St' & T').
  assert (e' = e). { destruct H' as (q & Q & _ & G1), H as (q2 & Q2 & _ & G2). rewrite Q in Q2. injection Q2 as <-. congruence. } subst e'.
  destruct (fresh _ os now k v _ St' (proj1 (T' SD)) L) as (t & w & I1 & LE).
  destruct (W _ I1) as (o & I2 & C2). pose proof (proj1 (sane_app _ _) S1) as [SA _].
  destruct (cause_inv ops p c sd e0 o _ SA (fits_app _ _ F) C2) as [(n & _ & Q)|(i & n & m & -> & NT & TN & _ & EF)]; [discriminate|].
  destruct (effect_apply _ _ _ _ _ _ _ EF) as (-> & CM & EK & _). exists i, n, m. repeat (split; [first [assumption|apply sent_stays; assumption|congruence]|]). exact EK.
Qed.
Lemma withdrawn_lemma ops s1 s p sd x c e i t m : sane (ops ++ [NDeliver p i t]) -> reach ops s1 -> reach (ops ++ [NDeliver p i t]) s -> fits s ->
  here s1 p sd x c e -> nth_error (nt_sent s1) i = Some m -> sm_cmd m = unreg_cmd (other sd) -> tp_tname (sm_topic m) = ne_name e -> ne_name e <> [] ->
  hears c (sm_host m) (tp_hgname (sm_topic m)) (sm_pid m) ->
  exists e', here s p sd x c e' /\ ne_name e' = ne_name e /\ ne_id e' = ne_id e /\ (forall v, ~ lists e' (info_of m) v) /\
    (forall k v, k <> info_of m -> lists e k v -> lists e' k v).
Proof.
  intros S1 R1 R F H NT CM TN NE HR. apply reach_end in R1, R. subst s1 s. pose proof (proj1 (sane_app _ _) S1) as [SA _].
  destruct (timed_told _ _ _ _ _ _ H) as (os & St & T).
  assert (C : cause (NDeliver p i t) (nt_sent (at_end ops)) p c sd e = Some (WRemove (info_of m))).
  { rewrite (cause_deliver ops p c sd e i t m SA (fits_app _ _ F) NT TN). apply effect_unreg; auto. rewrite TN. exact NE. }
  destruct (step_call ops (NDeliver p i t) p sd x c e _ os H St T ltac:(discriminate) C) as (e' & H' & N' & I' & St' & T').
  exists e'. repeat (split; [assumption|]). destruct (story_run _ _ _ St) as (RA & IA & _). destruct (story_run _ _ _ St') as (RB & IB & _).
  rewrite map_app, em_run_app, RA in RB. cbn [map mop em_run em_step] in RB.
  assert (X : forall k, em_find k (cn_map (ne_conn e')) = if eqb k (info_of m) then None else em_find k (cn_map (ne_conn e))).
  { intros k. destruct (em_erase (info_of m) (cn_map (ne_conn e))) as [[b mm]|] eqn:ER; [|discriminate]. injection RB as <-. unfold em_erase in ER.
    destruct (aget (info_of m) (e_map (cn_map (ne_conn e)))) as [xx|] eqn:G.
    - destruct (find_cell (m_it xx) (e_list (cn_map (ne_conn e)))); [|discriminate]. injection ER as <- <-.
      unfold em_find. cbn [e_map]. rewrite aget_adel. destruct (eqb k (info_of m)); reflexivity.
    - injection ER as <- <-. destruct (eqb k (info_of m)) eqn:E; [|reflexivity]. apply eqb_true in E. subst k. unfold em_find. rewrite G. reflexivity. }
  split.
  - intros v L. apply contents_find in L; [|exact IB]. rewrite X, eqb_refl in L. discriminate.
  - intros k v NK L. apply contents_find in L; [|exact IA]. apply contents_find; [exact IB|]. rewrite X, neq_eqb by exact NK. exact L.
Qed.
Lemma unheard_lemma ops s1 s p sd x c e i t m : sane (ops ++ [NDeliver p i t]) -> reach ops s1 -> reach (ops ++ [NDeliver p i t]) s -> fits s ->
  here s1 p sd x c e -> nth_error (nt_sent s1) i = Some m -> ~ hears c (sm_host m) (tp_hgname (sm_topic m)) (sm_pid m) ->
  exists e', here s p sd x c e' /\ forall k v, lists e' k v <-> lists e k v.
Proof.
  intros S1 R1 R F H NT HR. apply reach_end in R1, R. subst s1 s. pose proof (proj1 (sane_app _ _) S1) as [SA _].
  destruct (here_fwd (NDeliver p i t) _ p sd x c e (at_end_good ops) H ltac:(discriminate)) as (e' & H' & M). rewrite <- at_end_snoc in H'.
  exists e'. split; [exact H'|]. destruct M as (_ & _ & M & _).
  assert (C : cause (NDeliver p i t) (nt_sent (at_end ops)) p c sd e = None).
  { destruct (sent_back ops i m SA (fits_app _ _ F) NT) as (D & B). cbn [cause]. rewrite Nat.eqb_refl, NT, D. destruct (eqb _ _); [|reflexivity].
    assert (CM : is_pub_cmd (sm_cmd m) = true \/ is_sub_cmd (sm_cmd m) = true).
    { destruct B as (a & b & q & sd' & y & c' & e1 & _ & _ & [->| ->]); destruct sd'; cbn; auto. }
    unfold effect. destruct (ap_accept _ m) eqn:A; [|reflexivity]. exfalso. apply HR. apply (accept_iff c m CM), A. }
  rewrite C in M. unfold lists. rewrite M. tauto.
Qed.

(** ** The whole exchange *)
Lemma hears_announced c c' sd e m : announces c' sd e m -> hears_from c c' -> hears c (sm_host m) (tp_hgname (sm_topic m)) (sm_pid m).
Proof. intros (_ & (A & B & C & D & _) & _). unfold hears_from. rewrite B, C, D. auto. Qed.
Lemma steady_app p a b : steady p (a ++ b) -> steady p a.
Proof. unfold steady. rewrite times_app. intros H. apply ascending_app in H. apply H. Qed.
Lemma here_same s p sd x c e c2 e2 : here s p sd x c e -> here s p sd x c2 e2 -> c2 = c /\ e2 = e.
Proof. intros (q & Q & C & G) (q2 & Q2 & C2 & G2). rewrite Q in Q2. injection Q2 as <-. split; congruence. Qed.
Lemma in_two {A} (x a b c : A) : In x [a; b; c] -> x = a \/ x = b \/ x = c. Proof. cbn. intuition. Qed.
Lemma shake_lemma ops s0 p w cp ew q r cq er : reach ops s0 -> here s0 p PubSide w cp ew -> here s0 q SubSide r cq er ->
  ne_name ew = ne_name er -> ne_name er <> [] -> hears_from cp cq -> hears_from cq cp ->
  forall t1, exists i, forall t2 t3, exists j, forall t4 s,
    sane ops -> reach (ops ++ [NCollect q t1; NDeliver p i t2; NCollect p t3; NDeliver q j t4]) s -> fits s ->
    steady p (ops ++ [NCollect q t1; NDeliver p i t2; NCollect p t3; NDeliver q j t4]) ->
    steady q (ops ++ [NCollect q t1; NDeliver p i t2; NCollect p t3; NDeliver q j t4]) ->
    (t3 - nc_timeout cp <= t2)%Z -> (forall e, here s p PubSide w cp e -> few e) ->
    exists ew' er' vr vw, here s p PubSide w cp ew' /\ here s q SubSide r cq er' /\
      lists ew' (key cq er') vr /\ lists er' (key cp ew') vw /\ ne_name ew' = ne_name ew /\ ne_name er' = ne_name er.
Proof.
  intros R0 HW HR NN NE H1 H2 t1. apply reach_end in R0. subst s0.
  destruct (cycle_end ops q SubSide r cq er t1 HR) as (er1 & i & HR1 & N1 & I1 & _ & LE1 & NT1). exists i. intros t2 t3.
  set (ops1 := ops ++ [NCollect q t1]) in *. set (ops2 := ops1 ++ [NDeliver p i t2]).
  destruct (here_fwd (NCollect q t1) _ p PubSide w cp ew (at_end_good ops) HW ltac:(discriminate)) as (ew1 & HW1 & MW1). rewrite <- at_end_snoc in HW1. fold ops1 in HW1.
  destruct (here_fwd (NDeliver p i t2) _ p PubSide w cp ew1 (at_end_good ops1) HW1 ltac:(discriminate)) as (ew2 & HW2 & MW2). rewrite <- at_end_snoc in HW2. fold ops2 in HW2.
  destruct (here_fwd (NDeliver p i t2) _ q SubSide r cq er1 (at_end_good ops1) HR1 ltac:(discriminate)) as (er2 & HR2 & MR2). rewrite <- at_end_snoc in HR2. fold ops2 in HR2.
  destruct (cycle_end ops2 p PubSide w cp ew2 t3 HW2) as (ew3 & j & HW3 & N3 & I3 & _ & LE3 & NT3). set (ops3 := ops2 ++ [NCollect p t3]) in *.
  destruct (here_fwd (NCollect p t3) _ q SubSide r cq er2 (at_end_good ops2) HR2 ltac:(discriminate)) as (er3 & HR3 & MR3). rewrite <- at_end_snoc in HR3. fold ops3 in HR3.
  exists j. intros t4 s SA R F SP SQ TO FW.
  assert (E : ops ++ [NCollect q t1; NDeliver p i t2; NCollect p t3; NDeliver q j t4] = ops3 ++ [NDeliver q j t4]).
  { unfold ops3, ops2, ops1. rewrite <- !app_assoc. reflexivity. }
  rewrite E in *. apply reach_end in R. subst s.
  assert (SN : sane (ops3 ++ [NDeliver q j t4])). { unfold ops3, ops2, ops1. rewrite !sane_app. repeat split; auto; repeat constructor. }
  destruct MW1 as (A1 & A2 & _). destruct MW2 as (A3 & A4 & _). destruct MR2 as (A5 & A6 & _). destruct MR3 as (A7 & A8 & _).
  pose proof (announces_reg cq SubSide er1) as AR. pose proof (announces_reg cp PubSide ew3) as AW.
  (* the publisher lists the subscriber after its own cycle *)
  assert (E3 : ops3 = ops1 ++ NDeliver p i t2 :: [NCollect p t3]) by (unfold ops3, ops2; rewrite <- app_assoc; reflexivity).
  destruct (stays_end ops1 [NCollect p t3] p PubSide w cp ew1 i t2 (n_reg cq SubSide er1)) as (ew3' & vr & HW3' & N3' & I3' & L3 & _).
  { rewrite <- E3. apply (proj1 (sane_app _ _)) in SN. apply SN. }
  { rewrite <- E3. apply (fits_app _ _ F). }
  { exact HW1. } { exact NT1. } { reflexivity. } { cbn. congruence. } { congruence. }
  { apply (hears_announced _ _ _ _ _ AR H1). } { discriminate. }
  { rewrite <- E3. apply (steady_app _ _ _ SP). } { intros [Q|[]]; discriminate. }
  { intros now [Q|[]]. injection Q as ->. exact TO. } { intros j0 now m' [Q|[]]; discriminate. }
  rewrite <- E3 in HW3'. destruct (here_same _ _ _ _ _ _ _ _ HW3 HW3') as [_ EE]. subst ew3'. rewrite (info_key _ _ _ _ AR) in L3.
  (* delivering the publisher's registration does not change it *)
  destruct (here_fwd (NDeliver q j t4) _ p PubSide w cp ew3 (at_end_good ops3) HW3 ltac:(discriminate)) as (ew4 & HW4 & MW4). rewrite <- at_end_snoc in HW4.
  assert (CN : cause (NDeliver q j t4) (nt_sent (at_end ops3)) p cp PubSide ew3 = None).
  { cbn [cause]. destruct (Nat.eqb q p) eqn:QP; [|reflexivity]. rewrite NT3.
    pose proof (proj1 (sane_app _ _) SN) as [S3 _]. rewrite (proj1 (sent_back ops3 j _ S3 (fits_app _ _ F) NT3)). destruct (eqb _ _); [|reflexivity].
    unfold effect. cbn. destruct (_ && _)%bool; reflexivity. }
  destruct MW4 as (B1 & B2 & B3 & _). rewrite CN in B3.
  assert (FW3 : few ew3). { pose proof (FW ew4 HW4) as X. unfold few in *. rewrite <- B3. exact X. }
  assert (CF : confirms (nc_host cq) (n_reg cp PubSide ew3)).
  { apply some_confirms; [exact FW3|]. exists (key cq er1), vr. split; [exact L3|]. cbn. split; congruence. }
  destruct (stays_end ops3 [] q SubSide r cq er3 j t4 (n_reg cp PubSide ew3)) as (er4 & vw & HR4 & N4 & I4 & L4 & _).
  { exact SN. } { exact F. } { exact HR3. } { exact NT3. } { reflexivity. } { cbn. congruence. } { congruence. }
  { apply (hears_announced _ _ _ _ _ AW H2). } { auto. } { exact SQ. } { intros []. } { intros now []. } { intros j0 now m' []. }
  exists ew4, er4, vr, vw. split; [exact HW4|]. split; [exact HR4|].
  assert (K1 : key cq er4 = key cq er1) by (unfold key; f_equal; congruence). assert (K2 : key cp ew4 = key cp ew3) by (unfold key; f_equal; congruence).
  rewrite K1, K2. split; [unfold lists in *; rewrite B3; exact L3|]. split; [rewrite <- (info_key _ _ _ _ AW); exact L4|]. split; congruence.
Qed.
