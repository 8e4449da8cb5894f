(** Property C102: discovery between processes. *)
From Verif Require Import Base Sample ExpMapModel ConnModel WrModel PbModel PbSpec SerModel SerSpec UdpModel GateModel NetModel NetSpec NetProofs.

(** Whatever the processes do and whatever the network delivers, no operation is undefined and
    every receiver keeps listening. *)
Theorem c102_always_defined ops : exists s, reach ops s /\ forall p q, aget p (nt_procs s) = Some q -> np_rx q = Listening.
Proof. exact (defined_lemma ops). Qed.
Print Assumptions c102_always_defined.
Example c102_always_defined_case : exists s, reach n_crowd s /\ length (nt_procs s) = 3 /\ length (nt_sent s) = 2.
Proof. vm_compute. eexists. repeat split. Qed.

(** Every counterpart a publisher or subscriber lists is real: at some moment it existed under
    that identity, on the same topic, offering that data type and those layers, in a process
    this one listens to.  A publisher listed by a subscriber moreover listed, at that moment,
    some subscriber on the side (same host or other hosts) on which the lister is. *)
Theorem c102_listed_is_real ops s p sd x c e k v : sane ops -> reach ops s -> fits s -> here s p sd x c e -> lists e k v ->
  exists ops1 ops2 s1 q y c' e', ops = ops1 ++ ops2 /\ reach ops1 s1 /\ here s1 q (other sd) y c' e' /\ k = key c' e' /\ ne_name e' = ne_name e /\
    offers (ne_rest e') v /\ hears_from c c' /\ (sd = SubSide -> counts_some c' e' (nc_host c)).
Proof. exact (origin_lemma ops s p sd x c e k v). Qed.
Print Assumptions c102_listed_is_real.
Example c102_listed_is_real_case :
  n_parts n_shake 1 PubSide 0 = Some [SubInfo (str "h2") 12 (str "200")] /\ n_parts n_shake 2 SubSide 0 = Some [SubInfo (str "h1") 11 (str "100")] /\
  n_parts (n_setup ++ [NCollect 1 0; NDeliver 2 0 1]) 2 SubSide 0 = Some [].
Proof. vm_compute. auto. Qed.

(** So a subscriber lists a publisher only after some subscriber of the topic, on the same side
    of that publisher as itself, has existed (not necessarily itself, see below). *)
Theorem c102_listed_needs_subscriber ops s p x c e k v : sane ops -> reach ops s -> fits s -> here s p SubSide x c e -> lists e k v ->
  exists ops1 ops2 s1 q y c' e', ops = ops1 ++ ops2 /\ reach ops1 s1 /\ here s1 q SubSide y c' e' /\ ne_name e' = ne_name e /\
    (nc_host c' = si_host k <-> nc_host c = si_host k).
Proof. exact (chain_lemma ops s p x c e k v). Qed.
Print Assumptions c102_listed_needs_subscriber.
Example c102_listed_needs_subscriber_case : n_parts n_crowd 3 SubSide 0 = Some [SubInfo (str "h1") 11 (str "100")] /\ n_parts n_crowd 2 SubSide 0 = Some [].
Proof. vm_compute. auto. Qed.

(** Every cycle of the registration thread sends the registration of every publisher and
    subscriber of the process; that of a publisher confirms connections on exactly those sides
    where it lists a subscriber. *)
Theorem c102_cycle_announces ops s s' p sd x c e now : reach ops s -> here s p sd x c e -> reach (ops ++ [NCollect p now]) s' ->
  exists e' i m, here s' p sd x c e' /\ ne_name e' = ne_name e /\ ne_id e' = ne_id e /\ ne_rest e' = ne_rest e /\
    length (nt_sent s) <= i /\ nth_error (nt_sent s') i = Some m /\ announces c sd e' m /\
    (sd = PubSide -> few e' -> forall host, confirms host m <-> counts_some c e' host).
Proof. exact (cycle_lemma ops s s' p sd x c e now). Qed.
Print Assumptions c102_cycle_announces.
Example c102_cycle_announces_case :
  exists s s' m1 m2, reach (n_setup ++ [NCollect 2 0]) s /\ reach (n_setup ++ [NCollect 2 0; NDeliver 1 0 1; NCollect 1 2]) s' /\
    nt_sent s = [m1] /\ nt_sent s' = [m1; m2] /\ sm_cmd m1 = bct_reg_subscriber /\ sm_cmd m2 = bct_reg_publisher /\
    tp_conn_loc (sm_topic m2) = 0%Z /\ tp_conn_ext (sm_topic m2) = 1%Z.
Proof. vm_compute. repeat eexists. Qed.

(** A registration that is delivered to an existing object of its topic in a process that
    listens to it, and, for a subscriber, confirms a connection, makes its sender listed; and
    listed it stays as long as the object exists, no withdrawal of the sender is delivered and
    no cycle comes later than the timeout after the delivery. *)
Theorem c102_announced_is_listed ops1 s1 ops2 s p sd x c e i t m :
  reach ops1 s1 -> reach (ops1 ++ NDeliver p i t :: ops2) s -> sane (ops1 ++ NDeliver p i t :: ops2) -> fits s ->
  here s1 p sd x c e -> nth_error (nt_sent s1) i = Some m -> sm_cmd m = reg_cmd (other sd) -> tp_tname (sm_topic m) = ne_name e -> ne_name e <> [] ->
  heard c m -> (sd = SubSide -> confirms (nc_host c) m) ->
  steady p (ops1 ++ NDeliver p i t :: ops2) -> ~ In (NDestroy p sd x) ops2 ->
  (forall now, In (NCollect p now) ops2 -> (now - nc_timeout c <= t)%Z) ->
  (forall j now m', In (NDeliver p j now) ops2 -> nth_error (nt_sent s) j = Some m' ->
     sm_cmd m' = unreg_cmd (other sd) -> tp_tname (sm_topic m') = ne_name e -> sender m' <> sender m) ->
  exists e' v, here s p sd x c e' /\ ne_name e' = ne_name e /\ ne_id e' = ne_id e /\ lists e' (sender m) v /\
    ((forall j now, ~ In (NDeliver p j now) ops2) -> offers (sm_topic m) v).
Proof. exact (stays_lemma ops1 s1 ops2 s p sd x c e i t m). Qed.
Print Assumptions c102_announced_is_listed.
Example c102_announced_is_listed_case :
  n_parts (n_setup ++ [NCollect 2 0; NDeliver 1 0 1; NCollect 1 11]) 1 PubSide 0 = Some [SubInfo (str "h2") 12 (str "200")] /\
  n_parts (n_setup ++ [NCollect 2 0; NDeliver 1 0 1; NCollect 1 12]) 1 PubSide 0 = Some [].
Proof. vm_compute. auto. Qed.

(** After a cycle at time [now] only those are listed whose registration was delivered at most
    the timeout before: who falls silent is forgotten. *)
Theorem c102_silence ops s p sd x c e now k v :
  sane (ops ++ [NCollect p now]) -> reach (ops ++ [NCollect p now]) s -> fits s -> steady p (ops ++ [NCollect p now]) -> here s p sd x c e -> lists e k v ->
  exists i t m, In (NDeliver p i t) ops /\ (now - nc_timeout c <= t)%Z /\ nth_error (nt_sent s) i = Some m /\
    sm_cmd m = reg_cmd (other sd) /\ tp_tname (sm_topic m) = ne_name e /\ k = sender m.
Proof. exact (silence_lemma ops s p sd x c e now k v). Qed.
Print Assumptions c102_silence.
Example c102_silence_case :
  n_parts (n_setup ++ [NCollect 2 0; NDeliver 1 0 1; NCollect 1 11; NCollect 2 15; NDeliver 1 2 16; NCollect 1 20]) 1 PubSide 0 = Some [SubInfo (str "h2") 12 (str "200")] /\
  n_parts (n_setup ++ [NCollect 2 0; NDeliver 1 0 1; NCollect 1 11; NCollect 2 15; NCollect 1 20]) 1 PubSide 0 = Some [].
Proof. vm_compute. auto. Qed.

(** A withdrawal that is delivered removes its sender at once, and no other. *)
Theorem c102_withdrawn ops s1 s p sd x c e i t m :
  sane (ops ++ [NDeliver p i t]) -> reach ops s1 -> reach (ops ++ [NDeliver p i t]) s -> fits s ->
  here s1 p sd x c e -> nth_error (nt_sent s1) i = Some m -> sm_cmd m = unreg_cmd (other sd) -> tp_tname (sm_topic m) = ne_name e -> ne_name e <> [] ->
  heard c m ->
  exists e', here s p sd x c e' /\ ne_name e' = ne_name e /\ ne_id e' = ne_id e /\ (forall v, ~ lists e' (sender m) v) /\
    (forall k v, k <> sender m -> lists e k v -> lists e' k v).
Proof. exact (withdrawn_lemma ops s1 s p sd x c e i t m). Qed.
Print Assumptions c102_withdrawn.
Example c102_withdrawn_case :
  n_parts (n_setup ++ [NCollect 2 0; NDeliver 1 0 1; NDestroy 2 SubSide 0; NFlush 2]) 1 PubSide 0 = Some [SubInfo (str "h2") 12 (str "200")] /\
  n_parts (n_setup ++ [NCollect 2 0; NDeliver 1 0 1; NDestroy 2 SubSide 0; NFlush 2; NDeliver 1 1 2]) 1 PubSide 0 = Some [].
Proof. vm_compute. auto. Qed.

(** What comes from a process this one does not listen to changes nothing. *)
Theorem c102_unheard ops s1 s p sd x c e i t m :
  sane (ops ++ [NDeliver p i t]) -> reach ops s1 -> reach (ops ++ [NDeliver p i t]) s -> fits s ->
  here s1 p sd x c e -> nth_error (nt_sent s1) i = Some m -> ~ heard c m ->
  exists e', here s p sd x c e' /\ forall k v, lists e' k v <-> lists e k v.
Proof. exact (unheard_lemma ops s1 s p sd x c e i t m). Qed.
Print Assumptions c102_unheard.
Example c102_unheard_case : exists s m, reach n_twins s /\ nt_sent s = [m] /\ ~ heard n_g1 m /\ n_parts (n_twins ++ [NDeliver 1 0 1]) 1 PubSide 0 = Some [].
Proof.
  eexists. eexists. split; [vm_compute; reflexivity|]. split; [reflexivity|]. split; [|vm_compute; reflexivity].
  intros [(_ & _ & [H|H])|(H & _)]; [apply H; reflexivity|discriminate|]. apply H. split; [reflexivity|discriminate].
Qed.

(** The exchange as a whole: a publisher and a subscriber of one topic in processes that listen
    to each other find each other within one cycle of the subscriber's process and one of the
    publisher's, if the two registrations are delivered. *)
Theorem c102_handshake ops s0 p w cp ew q r cq er : reach ops s0 -> here s0 p PubSide w cp ew -> here s0 q SubSide r cq er ->
  ne_name ew = ne_name er -> ne_name er <> [] -> hears_from cp cq -> hears_from cq cp ->
  forall t1, exists i, forall t2 t3, exists j, forall t4 s,
    let all := ops ++ [NCollect q t1; NDeliver p i t2; NCollect p t3; NDeliver q j t4] in
    sane ops -> reach all s -> fits s -> steady p all -> steady q all ->
    (t3 - nc_timeout cp <= t2)%Z -> (forall e, here s p PubSide w cp e -> few e) ->
    exists ew' er' vr vw, here s p PubSide w cp ew' /\ here s q SubSide r cq er' /\
      lists ew' (key cq er') vr /\ lists er' (key cp ew') vw /\ ne_name ew' = ne_name ew /\ ne_name er' = ne_name er.
Proof. exact (shake_lemma ops s0 p w cp ew q r cq er). Qed.
Print Assumptions c102_handshake.
Example c102_handshake_case : n_shake = n_setup ++ [NCollect 2 0; NDeliver 1 0 1; NCollect 1 2; NDeliver 2 1 3] /\
  hears_from n_ca n_cb /\ hears_from n_cb n_ca /\ n_parts n_shake 1 PubSide 0 = Some [SubInfo (str "h2") 12 (str "200")] /\
  n_parts n_shake 2 SubSide 0 = Some [SubInfo (str "h1") 11 (str "100")].
Proof.
  split; [reflexivity|]. split; [right; split; [intros [H _]; discriminate|reflexivity]|]. split; [right; split; [intros [H _]; discriminate|reflexivity]|].
  split; vm_compute; reflexivity.
Qed.

(** "A subscriber whose withdrawal has been delivered is not listed" fails: registrations carry
    no time or number, so an older datagram that arrives after the withdrawal (UDP may reorder
    and duplicate) lists the subscriber again, although it no longer exists, until the timeout. *)
Theorem c102_withdrawal_final_refuted : exists s e v, reach n_late s /\ here s 1 PubSide 0 n_ca e /\ lists e (SubInfo (str "h2") 12 (str "200")) v /\
  (forall c' e', ~ here s 2 SubSide 0 c' e') /\ n_parts (removelast n_late) 1 PubSide 0 = Some [].
Proof.
  destruct (net_run n_late net0) as [s|] eqn:R; [|vm_compute in R; discriminate]. pose proof R as R'. vm_compute in R. injection R as <-.
  eexists. eexists. eexists. split; [exact R'|]. split; [eexists; split; [reflexivity|]; split; reflexivity|]. split; [left; reflexivity|].
  split; [|vm_compute; reflexivity]. intros c' e' (q & Q & _ & G). vm_compute in Q. injection Q as <-. discriminate.
Qed.
Print Assumptions c102_withdrawal_final_refuted.

(** "A subscriber that lists a publisher is listed by it" fails: a publisher tells others only
    how many local and external subscribers it has, not which, so a subscriber whose own
    registration never reached the publisher takes the connection of another one on the same
    side for its own. *)
Theorem c102_mutual_refuted : exists s e1 e3 v, reach n_crowd s /\ here s 1 PubSide 0 n_ca e1 /\ here s 3 SubSide 0 n_cc e3 /\
  lists e3 (key n_ca e1) v /\ forall v', ~ lists e1 (key n_cc e3) v'.
Proof.
  destruct (net_run n_crowd net0) as [s|] eqn:R; [|vm_compute in R; discriminate]. pose proof R as R'. vm_compute in R. injection R as <-.
  eexists. eexists. eexists. eexists. split; [exact R'|]. split; [eexists; split; [reflexivity|]; split; reflexivity|].
  split; [eexists; split; [reflexivity|]; split; reflexivity|]. split; [left; reflexivity|]. intros v' [H|[]]. discriminate.
Qed.
Print Assumptions c102_mutual_refuted.

(** "Processes of one host group hear each other" fails: without loopback a process takes every
    registration of its group that bears its own process id for its own, also when it comes
    from another host (IsSameProcess compares the process id alone). *)
Theorem c102_group_members_refuted : exists c c', nc_host c <> nc_host c' /\ nc_group c = nc_group c' /\ nc_network c = true /\ nc_network c' = true /\
  ~ hears_from c c' /\ ~ hears_from c' c /\
  exists ops, reach ops (match net_run ops net0 with Some s => s | None => net0 end) /\ In (NStart 1 c) ops /\ In (NStart 2 c') ops /\
    In (NDeliver 1 0 1) ops /\ In (NDeliver 2 1 3) ops /\ n_parts ops 1 PubSide 0 = Some [] /\ n_parts ops 2 SubSide 0 = Some [].
Proof.
  exists n_g1, n_g2. split; [discriminate|]. repeat (split; [reflexivity|]).
  assert (X : forall a b, (a = n_g1 /\ b = n_g2) \/ (a = n_g2 /\ b = n_g1) -> ~ hears_from a b).
  { intros a b [(-> & ->)|(-> & ->)] [(_ & _ & [H|H])|(H & _)]; try discriminate; apply H; try reflexivity; (split; [reflexivity|discriminate]). }
  split; [apply X; auto|]. split; [apply X; auto|].
  exists (n_twins ++ [NDeliver 1 0 1; NCollect 1 2; NDeliver 2 1 3]). split; [vm_compute; reflexivity|].
  repeat split; try (vm_compute; reflexivity); cbn; auto 12.
Qed.
Print Assumptions c102_group_members_refuted.
