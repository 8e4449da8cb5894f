(** Properties C12 to C16 and C55: the sending side of a publisher. *)
From Verif Require Import Base Sample ExpMapModel ConnModel ConnSpec ConnProofs WrModel WrSpec WrProofs.

(** C12: a publisher's connection bookkeeping is that of the generic model run on its
    subscription calls; whole calls keep the events alternating, with one update event
    for each applied subscription. *)
Theorem c12_events_alternate_partial :
  forall (c : wcfg) (os : list wcall),
    exists w outs, w_run c (wcalls os) (w_new c) = Some (w, outs) /\
      alternating (signals (cn_events (w_conn w))) /\
      cn_flag (w_conn w) = Nat.odd (length (signals (cn_events (w_conn w)))) /\
      updates (cn_events (w_conn w)) = announced (conn_calls os).
Proof. exact writer_events_lemma. Qed.
Print Assumptions c12_events_alternate_partial.

Theorem c12_connected_iff_subscribed_after_check_partial :
  forall (c : wcfg) (t0 : Z) (os : list wcall) (now : Z),
    times_from t0 (conn_calls os ++ [WCheck now]) ->
    exists w outs, w_run c (wcalls (os ++ [CCheck now])) (w_new c) = Some (w, outs) /\
      (cn_flag (w_conn w) = true <-> exists k, registered (wc_timeout c) now (conn_calls os) k).
Proof. exact writer_connected_lemma. Qed.
Print Assumptions c12_connected_iff_subscribed_after_check_partial.

(** C12 is false when a check overlaps the handling of a subscription, as in C11. *)
Theorem c12_overlapping_check_events_refuted :
  ~ (forall (timeout : Z) (ms : list (micro subinfo sublayers)) s,
       micro_run (SubLayers false false false) ms (conn_new timeout) = Some s -> alternating (signals (cn_events s))).
Proof. exact writer_overlap_refuted_lemma. Qed.
Print Assumptions c12_overlapping_check_events_refuted.

(** C12, the published connection counts: the listed subscribers on the own host and
    those on other hosts. *)
Theorem c12_connection_counts :
  forall (c : wcfg) (os : list wcall),
    exists w outs, w_run c (wcalls os) (w_new c) = Some (w, outs) /\
      let (l, e) := w_connections c w in
      exists subs : list subinfo, NoDup subs /\ (forall k, In k subs <-> em_find k (cn_map (w_conn w)) <> None) /\
        l = length (filter (fun k => eqb (si_host k) (wc_host c)) subs) /\
        e = length (filter (fun k => negb (eqb (si_host k) (wc_host c))) subs).
Proof. exact connections_lemma. Qed.
Print Assumptions c12_connection_counts.

Definition ex_cfg (zc : bool) : wcfg := WCfg [1%Z] true true true [tl_shm; tl_udp] [tl_tcp; tl_udp] zc 5 10.
Definition ex_sub (h : Z) : subinfo := SubInfo [h] 3 [h; h].
Definition ex_calls : list wcall :=
  [CSend [9]%Z 1 true true true; CSub 0 (ex_sub 1) (SubLayers true true false); CSetID 4; CSend [1; 2]%Z 5 true true true;
   CSub 2 (ex_sub 2) (SubLayers true false true); CCheck 3; CSend [3; 4; 5]%Z 6 true false false; CUnsub (ex_sub 1); CCheck 13].
Example c12_hypotheses_met :
  times_from 0 (conn_calls ex_calls ++ [WCheck 14]) /\
  exists w outs, w_run (ex_cfg true) (wcalls ex_calls) (w_new (ex_cfg true)) = Some (w, outs) /\
    signals (cn_events (w_conn w)) = [true; false] /\ length outs = 6.
Proof. split; [cbn; lia|]. eexists _, _. split; [vm_compute; reflexivity|]. split; reflexivity. Qed.

(** C13: after any history the clock equals the number of sends (counting those that
    only refreshed the counter), and a send hands the same id, clock, time, hash, length
    and bytes to every layer in use. *)
Theorem c13_layers_carry_the_same_message :
  forall (c : wcfg) (os : list wcall) (p : list Z) (time : Z) (okS okU okT : bool),
    exists w outs w', w_run c (wcalls os) (w_new c) = Some (w, outs) /\
      w_clock w = Z.of_nat (sends os) /\
      (subscribed w -> w_run c (wcall_ops (CSend p time okS okU okT)) w =
         Some (w', map (fun l => WTx (same_message c (id_after os) (S (sends os)) p time l)) (layers_of w)
                ++ [WRet (if (w_shm w && okS) || (w_udp w && okU) || (w_tcp w && okT) then length p else 0)])) /\
      (~ subscribed w -> w_run c (wcall_ops (CSend p time okS okU okT)) w = Some (w', [WRet (length p)])) /\
      w_clock w' = Z.of_nat (S (sends os)).
Proof. exact send_outputs_lemma. Qed.
Print Assumptions c13_layers_carry_the_same_message.

(** C13: the messages of one publisher have different hashes (for the first 2^63 sends). *)
Theorem c13_hash_differs_for_different_clocks :
  forall (h a b : Z), (0 <= a < 2 ^ 63)%Z -> (0 <= b < 2 ^ 63)%Z -> snd_hash h a = snd_hash h b -> a = b.
Proof. exact snd_hash_inj. Qed.
Print Assumptions c13_hash_differs_for_different_clocks.

Example c13_hypotheses_met :
  exists w outs, w_run (ex_cfg true) (wcalls (firstn 5 ex_calls)) (w_new (ex_cfg true)) = Some (w, outs) /\
    subscribed w /\ sends (firstn 5 ex_calls) = 2 /\ layers_of w = [tl_shm; tl_tcp].
Proof. eexists _, _. split; [vm_compute; reflexivity|]. split; [discriminate|]. split; reflexivity. Qed.

(** C55 is false: for any two topic ids whose string hashes agree in the lowest bit
    there are clocks at which messages of the two publishers have the same hash, so a
    subscriber takes one for a duplicate of the other. *)
Theorem c55_different_publishers_same_hash_refuted :
  forall h1 h2 : Z, (0 <= h1 < 2 ^ 64)%Z -> (0 <= h2 < 2 ^ 64)%Z -> Z.testbit (Z.lxor h1 h2) 0 = false ->
    exists a b, (0 <= a < 2 ^ 63)%Z /\ (0 <= b < 2 ^ 63)%Z /\ snd_hash h1 a = snd_hash h2 b.
Proof. exact snd_hash_collision. Qed.
Print Assumptions c55_different_publishers_same_hash_refuted.
Example c55_hypotheses_met : Z.testbit (Z.lxor 12 6) 0 = false /\ snd_hash 12 0 = snd_hash 6 5.
Proof. split; reflexivity. Qed.

(** C14: the layer chosen for a subscription is the first one of the applicable priority
    list that both ends enable; none if there is no common layer. *)
Theorem c14_best_common_layer_is_chosen :
  forall (c : wcfg) (k : subinfo) (s : sublayers),
    let chosen := determine_layer c (pub_layers c) (sub_layers s) (eqb (wc_host c) (si_host k)) in
    (forall l, l <> tl_none -> (chosen = l <-> best_layer c k s l)) /\
    (chosen = tl_none <-> forall l, ~ best_layer c k s l).
Proof. exact (fun c k s => conj (fun l => determine_lemma c k s l) (determine_none_lemma c k s)). Qed.
Print Assumptions c14_best_common_layer_is_chosen.

(** C14: the layers in use after any history are exactly those some subscription asked
    for, and further calls never end the use of a layer. *)
Theorem c14_layers_in_use :
  forall (c : wcfg) (os : list wcall) w outs, w_run c (wcalls os) (w_new c) = Some (w, outs) ->
    forall l, In l (layers_of w) <-> activated c os l.
Proof. exact layers_lemma. Qed.
Print Assumptions c14_layers_in_use.
Theorem c14_layer_stays_in_use :
  forall (c : wcfg) (os os' : list wcall) w outs w' outs',
    w_run c (wcalls os) (w_new c) = Some (w, outs) -> w_run c (wcalls (os ++ os')) (w_new c) = Some (w', outs') ->
    forall l, In l (layers_of w) -> In l (layers_of w').
Proof. exact layers_stay_lemma. Qed.
Print Assumptions c14_layer_stays_in_use.

Example c14_hypotheses_met :
  best_layer (ex_cfg true) (ex_sub 1) (SubLayers true true true) tl_shm /\
  best_layer (ex_cfg true) (ex_sub 2) (SubLayers true true false) tl_udp /\
  forall l, ~ best_layer (ex_cfg true) (ex_sub 2) (SubLayers false true false) l.
Proof.
  split; [|split].
  - exists [], [tl_udp]. split; [reflexivity|]. split; [right; left; auto|intros x []].
  - exists [tl_tcp], []. split; [reflexivity|]. split; [left; auto|].
    intros x [<-|[]] C. destruct C as [(E & _)|[(E & _)|(_ & _ & E)]]; discriminate.
  - apply determine_none_lemma. reflexivity.
Qed.

(** C15: a send with a subscription returns the payload size if and only if some layer
    in use accepted the message, and zero otherwise. *)
Theorem c15_send_returns_size_iff_accepted :
  forall (c : wcfg) (os : list wcall) (p : list Z) (time : Z) (okS okU okT : bool) w outs,
    w_run c (wcalls os) (w_new c) = Some (w, outs) -> subscribed w ->
    exists w' txs n, w_run c (wcall_ops (CSend p time okS okU okT)) w = Some (w', txs ++ [WRet n]) /\
      (accepted w okS okU okT -> n = length p) /\ (~ accepted w okS okU okT -> n = 0).
Proof. exact return_lemma. Qed.
Print Assumptions c15_send_returns_size_iff_accepted.

(** C16 is false of the code: if a subscription starts another layer while a zero-copy
    send is under way, that layer is handed the publisher's internal buffer, which was
    never filled: bytes outside of it are read. *)
Theorem c16_layer_started_during_zero_copy_send_refuted :
  ~ (forall c os w outs, w_run c os (w_new c) = Some (w, outs) ->
       forall t, In (WTx t) outs -> exists b, tx_bytes t = Some b /\ length b = tx_len t).
Proof. exact zero_copy_race_lemma. Qed.
Print Assumptions c16_layer_started_during_zero_copy_send_refuted.

(** C16, the part that holds: as long as no subscription is handled during a send, every
    layer gets exactly the bytes of this send, for every history. *)
Theorem c16_whole_sends_hand_over_their_own_bytes_partial :
  forall (c : wcfg) (os : list wcall) (p : list Z) (time : Z) (okS okU okT : bool) w outs w' outs' t,
    w_run c (wcalls os) (w_new c) = Some (w, outs) ->
    w_run c (wcall_ops (CSend p time okS okU okT)) w = Some (w', outs') ->
    In (WTx t) outs' -> tx_bytes t = Some p.
Proof. exact own_bytes_lemma. Qed.
Print Assumptions c16_whole_sends_hand_over_their_own_bytes_partial.

(** C16, without zero copy: however subscriptions interleave with the parts of a send,
    every layer gets exactly the bytes and the length of the send under way. *)
Theorem c16_without_zero_copy_no_interleaving_hurts_partial :
  forall (c : wcfg) (os : list wrop) w outs, wc_zero_copy c = false -> w_run c os (w_new c) = Some (w, outs) ->
    forall t, In (WTx t) outs -> exists b, tx_bytes t = Some b /\ length b = tx_len t /\ exists time, In (OBegin b time) os.
Proof. exact no_zero_copy_lemma. Qed.
Print Assumptions c16_without_zero_copy_no_interleaving_hurts_partial.

Example c16_hypotheses_met :
  exists w outs, w_run (ex_cfg false) [OSub 0 (ex_sub 1) (SubLayers true true true); OBegin [1; 2]%Z 0; ONext true;
     OSub 0 (ex_sub 2) (SubLayers true true true); ONext true; ONext true] (w_new (ex_cfg false)) = Some (w, outs) /\ length outs = 3.
Proof. eexists _, _. split; vm_compute; reflexivity. Qed.
