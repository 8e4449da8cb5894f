(** Properties C07 to C10: what a subscriber delivers. *)
From Verif Require Import Base Sample RdModel RdSpec RdProofs.

(** C07: with out-of-order dropping, the delivered clocks of every publisher are
    strictly increasing, for every sequence of arrivals and calls. *)
Theorem c07_clocks_strictly_increase :
  forall (c : rcfg) (os : list rop) (t : text), rc_drop_ooo c = true ->
    increasing (clocks_of t (taken c os)).
Proof. exact increasing_lemma. Qed.
Print Assumptions c07_clocks_strictly_increase.

(** C07: whether or not dropping is on, once a message was delivered, another arrival
    with the same hash is not delivered as long as fewer than 64 different hashes
    arrived in between. *)
Theorem c07_no_duplicate_within_window :
  forall (c : rcfg) (pre : list rop) (m : msg) (mid : list rop) (m' : msg),
    takes c (rd_after c pre) m = true -> m_hash m' = m_hash m -> distinct_hashes mid <= 63 ->
    takes c (rd_after c (pre ++ RArrive m :: mid)) m' = false.
Proof. exact window_lemma. Qed.
Print Assumptions c07_no_duplicate_within_window.

Definition ex_msg (t clk id : Z) (l : ltype) : msg := Msg [t] [clk; id] id clk (100 + clk) (1000 * t + clk) l.
Definition all_on (d : bool) : rcfg := RCfg true true true d.
Example c07_hypotheses_met :
  let os := [RArrive (ex_msg 1 1 0 tl_shm); RArrive (ex_msg 1 1 0 tl_udp); RArrive (ex_msg 2 7 0 tl_shm);
             RArrive (ex_msg 1 4 0 tl_shm); RArrive (ex_msg 1 3 0 tl_shm); RArrive (ex_msg 1 5 0 tl_tcp)] in
  clocks_of [1%Z] (taken (all_on true) os) = [1; 4; 5]%Z /\
  clocks_of [1%Z] (taken (all_on false) os) = [1; 4; 3; 5]%Z.
Proof. split; reflexivity. Qed.
Example c07_window_met :
  takes (all_on false) (rd_after (all_on false) []) (ex_msg 1 1 0 tl_shm) = true /\
  distinct_hashes (map (fun i => RArrive (ex_msg 1 (2 + Z.of_nat i) 0 tl_shm)) (seq 0 63)) = 63.
Proof. split; vm_compute; reflexivity. Qed.

(** The window is not larger than that: after 64 other messages a copy of the first
    one is delivered a second time when out-of-order dropping is off. *)
Example c07_window_is_tight :
  let c := all_on false in let m := ex_msg 1 1 0 tl_shm in
  let mid := map (fun i => RArrive (ex_msg 1 (2 + Z.of_nat i) 0 tl_shm)) (seq 0 64) in
  takes c rd_new m = true /\ takes c (rd_after c (RArrive m :: mid)) m = true.
Proof. split; vm_compute; reflexivity. Qed.

(** C08 is false of the code: whenever a gap occurred, the reported count is larger
    than the number of missed messages, by one for each gap. *)
Theorem c08_drop_count_is_missed_plus_gaps_partial :
  forall (c : rcfg) (os : list rop),
    rd_drops (rd_after c os) = (missed (taken c os) + Z.of_nat (length (jumps [] (taken c os))))%Z.
Proof. exact drops_lemma. Qed.
Print Assumptions c08_drop_count_is_missed_plus_gaps_partial.

Theorem c08_drop_count_refuted :
  ~ (forall (c : rcfg) (os : list rop), rd_drops (rd_after c os) = missed (taken c os)).
Proof. exact drop_count_refuted_lemma. Qed.
Print Assumptions c08_drop_count_refuted.

(** C08, what holds: the count is zero exactly if nothing was missed. *)
Theorem c08_zero_iff_nothing_missed_partial :
  forall (c : rcfg) (os : list rop), rd_drops (rd_after c os) = 0%Z <-> missed (taken c os) = 0%Z.
Proof. exact drops_zero_lemma. Qed.
Print Assumptions c08_zero_iff_nothing_missed_partial.

(** C08: a delivered message raises the dropped event, with its own clock, exactly if
    it jumps over at least one clock and a handler is set. *)
Theorem c08_dropped_event_iff_gap :
  forall (c : rcfg) (os : list rop) (m : msg) (k : nat) (x : Z), takes c (rd_after c os) m = true ->
    (In (RODropEvent k x) (snd (rd_apply c m (rd_after c os))) <->
     drop_callback_after os = Some k /\ x = m_clock m /\ jumps_over (taken c os) m).
Proof. exact drop_event_lemma. Qed.
Print Assumptions c08_dropped_event_iff_gap.

Example c08_hypotheses_met :
  let os := [RSetDropEvent 9; RArrive (ex_msg 1 1 0 tl_shm); RArrive (ex_msg 1 2 0 tl_shm)] in
  let m := ex_msg 1 5 0 tl_shm in
  takes (all_on true) (rd_after (all_on true) os) m = true /\ jumps_over (taken (all_on true) os) m /\
  missed (taken (all_on true) (os ++ [RArrive m])) = 2%Z /\ rd_drops (rd_after (all_on true) (os ++ [RArrive m])) = 3%Z.
Proof.
  split; [reflexivity|]. split; [exists 2%Z; split; [reflexivity|cbn; lia]|]. split; reflexivity.
Qed.

(** C09: a receive call after any history returns exactly the newest message put into
    the buffer since the last receive, and nothing if there is none. *)
Theorem c09_receive_returns_newest_once :
  forall (c : rcfg) (os : list rop) (p : list Z) (t : Z),
    snd (rd_read (rd_after c os)) = Some (p, t) <-> ~ In RStop os /\ newest c os p t.
Proof. exact read_lemma. Qed.
Print Assumptions c09_receive_returns_newest_once.

(** C09: while a callback is set, a delivered message goes to it and does not change
    what a receive call would return. *)
Theorem c09_callback_consumes :
  forall (c : rcfg) (os : list rop) (m : msg) (k : nat), callback_after os = Some k ->
    (In (ROCallback k m) (snd (rd_apply c m (rd_after c os))) <-> takes c (rd_after c os) m = true) /\
    (takes c (rd_after c os) m = true -> forall p t, newest c (os ++ [RArrive m]) p t <-> newest c os p t).
Proof. exact callback_lemma. Qed.
Print Assumptions c09_callback_consumes.

Example c09_hypotheses_met :
  let os := [RArrive (ex_msg 1 1 0 tl_shm); RRead; RArrive (ex_msg 1 2 0 tl_shm); RArrive (ex_msg 1 3 0 tl_shm);
             RSetCallback 5; RArrive (ex_msg 1 4 0 tl_shm)] in
  snd (rd_read (rd_after (all_on true) os)) = Some ([3; 0], 103)%Z /\
  callback_after os = Some 5 /\ snd (rd_read (rd_after (all_on true) (os ++ [RRead]))) = None.
Proof. repeat split; reflexivity. Qed.

(** C10: what is delivered came through an enabled layer and has a requested id. *)
Theorem c10_delivered_only_if_enabled_and_requested :
  forall (c : rcfg) (os : list rop) (m : msg), takes c (rd_after c os) m = true ->
    ~ In RStop os /\ layer_enabled c m /\ id_requested os m.
Proof. exact deliver_lemma'. Qed.
Print Assumptions c10_delivered_only_if_enabled_and_requested.

(** C10: the arrival of a message that is filtered out changes no counter, no clock
    and no buffer, and raises nothing. *)
Theorem c10_filtered_message_changes_nothing :
  forall (c : rcfg) (os : list rop) (m : msg),
    ~ layer_enabled c m \/ ~ id_requested os m ->
    let r := rd_after c os in let r' := fst (rd_apply c m r) in
    rd_count r' = rd_count r /\ rd_drops r' = rd_drops r /\ rd_size r' = rd_size r /\ rd_clocks r' = rd_clocks r /\
    rd_buf r' = rd_buf r /\ rd_time r' = rd_time r /\ rd_received r' = rd_received r /\
    exists n, snd (rd_apply c m r) = [ROReturn n].
Proof. exact filtered_lemma'. Qed.
Print Assumptions c10_filtered_message_changes_nothing.

(** C10, a consequence worth knowing: messages the user filtered out are later
    reported as dropped, although every message arrived in order. *)
Theorem c10_filtered_messages_count_as_dropped_refuted :
  ~ (forall (c : rcfg) (ids : list Z) (ms : list msg),
       map m_clock ms = map (fun i => Z.of_nat i) (seq 1 (length ms)) ->
       (forall m, In m ms -> m_tid m = [1%Z] /\ m_layer m = tl_shm) ->
       rd_drops (rd_after c (RSetID ids :: map RArrive ms)) = 0%Z).
Proof. exact filtered_dropped_refuted_lemma. Qed.
Print Assumptions c10_filtered_messages_count_as_dropped_refuted.

(** C10, the converse: an acceptable message that was not seen before and is newer than
    what was delivered for its publisher is delivered. *)
Theorem c10_acceptable_new_message_is_delivered :
  forall (c : rcfg) (os : list rop) (m : msg),
    ~ In RStop os -> layer_enabled c m -> id_requested os m ->
    ~ In (m_hash m) (map m_hash (arrivals os)) -> newer_clock (taken c os) m ->
    takes c (rd_after c os) m = true.
Proof. exact accept_lemma. Qed.
Print Assumptions c10_acceptable_new_message_is_delivered.

Example c10_hypotheses_met :
  let os := [RSetID [4; 5]%Z; RArrive (ex_msg 1 1 4 tl_shm)] in
  takes (all_on true) (rd_after (all_on true) os) (ex_msg 1 2 5 tl_udp) = true /\
  id_requested os (ex_msg 1 2 5 tl_udp) /\ newer_clock (taken (all_on true) os) (ex_msg 1 2 5 tl_udp) /\
  ~ id_requested os (ex_msg 1 2 6 tl_udp) /\ ~ layer_enabled (RCfg false true true true) (ex_msg 1 2 5 tl_udp).
Proof.
  split; [reflexivity|]. split; [right; cbn; auto|]. split; [intros h [<-|[]]; cbn; lia|].
  split; [intros [H|H]; [discriminate|cbn in H; intuition discriminate]|].
  intros [H _]. discriminate (H eq_refl).
Qed.
