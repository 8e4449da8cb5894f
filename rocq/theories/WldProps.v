(** Property C117: publishing and subscribing between processes. *)
From Verif Require Import Base Sample ExpMapModel ConnModel PbModel PbSpec SerModel SerSpec WrModel WrSpec RdModel RdSpec UdpModel UdpSpec TcpModel GateModel NetModel NetSpec E2eModel WldModel WldSpec WldProofs WldWay WldEnd WldAll.

(** Whatever the processes do, and whatever registrations and packets arrive where and when, no
    operation is undefined. *)
Theorem c117_always_defined ops : exists s evs, runs ops s evs.
Proof. exact (defined_world ops). Qed.
Print Assumptions c117_always_defined.
Example c117_always_defined_case : exists s evs, runs wd_heard s evs /\ length (wd_packets s) = 2 /\ length (called_at 2 0 evs) = 2.
Proof. eexists. eexists. split; [vm_compute; reflexivity|]. vm_compute. auto. Qed.

(** The discovery is that of C102: sending and receiving do not disturb it. *)
Theorem c117_discovery ops s evs : runs ops s evs -> exists nops, reach nops (wd_net s) /\ (Forall usual_op ops -> sane nops).
Proof. exact (world_reach ops s evs). Qed.
Print Assumptions c117_discovery.
Example c117_discovery_case : exists s evs, runs wd_heard s evs /\
  reach [NStart 1 n_ca; NStart 2 n_cb; NCreate 1 PubSide 0 (str "t") (str "100") n_pr; NCreate 2 SubSide 0 (str "t") (str "200") (with_layers (sub_tlayers wd_rc rd_new) n_sr); NCollect 2 0; NDeliver 1 0 1] (wd_net s).
Proof. eexists. eexists. split; vm_compute; reflexivity. Qed.

(** The host by which a publisher tells near subscribers from far ones is that of its process. *)
Theorem c117_host ops s evs p x c e u : runs ops s evs -> publisher s p x c e u -> wc_host (wu_cfg u) = nc_host c.
Proof. exact (writer_host ops s evs p x c e u). Qed.
Print Assumptions c117_host.
Example c117_host_case : exists s evs c e u, runs wd_talk s evs /\ publisher s 1 0 c e u /\ wc_host (wu_cfg u) = str "h1".
Proof. eexists. eexists. eexists. eexists. eexists. split; [vm_compute; reflexivity|]. split; [split; [eexists; vm_compute; auto|vm_compute; reflexivity]|vm_compute; reflexivity]. Qed.

(** For every subscriber a publisher lists it writes to the layer that is first among its
    priorities for that side (same host or other hosts) and that both have. *)
Theorem c117_layer_started ops s evs p x c e u k v l : runs ops s evs -> publisher s p x c e u -> lists e k v -> layer_for u k v l -> uses u l.
Proof. exact (layer_started ops s evs p x c e u k v l). Qed.
Print Assumptions c117_layer_started.
Example c117_layer_started_case : exists s evs c e u, runs wd_talk s evs /\ publisher s 1 0 c e u /\
  lists e (SubInfo (str "h2") 12 (str "200")) (tp_dtype n_sr, SubLayers true true true) /\ layer_for u (SubInfo (str "h2") 12 (str "200")) (tp_dtype n_sr, SubLayers true true true) tl_udp.
Proof.
  eexists. eexists. eexists. eexists. eexists. split; [vm_compute; reflexivity|]. split; [split; [eexists; vm_compute; auto|vm_compute; reflexivity]|]. split; [vm_compute; auto|].
  exists [], [tl_tcp]. split; [reflexivity|]. split; [left; auto|intros z []].
Qed.

(** A publisher writes to a layer only if at some moment it listed a subscriber for which that
    layer was the right one. *)
Theorem c117_layer_reason ops s evs p x c e u l : runs ops s evs -> publisher s p x c e u -> uses u l ->
  exists a b s1 evs1 e1 u1 k v, ops = a ++ b /\ runs a s1 evs1 /\ publisher s1 p x c e1 u1 /\ ne_name e1 = ne_name e /\ ne_id e1 = ne_id e /\ lists e1 k v /\ layer_for u1 k v l.
Proof. exact (layer_reason ops s evs p x c e u l). Qed.
Print Assumptions c117_layer_reason.
Example c117_layer_reason_case : exists s evs c e u, runs wd_left s evs /\ publisher s 1 0 c e u /\ uses u tl_tcp /\ uses u tl_udp /\ ~ uses u tl_shm.
Proof.
  eexists. eexists. eexists. eexists. eexists. split; [vm_compute; reflexivity|]. split; [split; [eexists; vm_compute; auto|vm_compute; reflexivity]|].
  vm_compute. split; [auto|]. split; [auto|]. intros [H|[H|[]]]; discriminate.
Qed.

(** Every subscriber a publisher lists has existed under that identity on the topic, in a process
    the publisher's process listens to, and reads exactly the layers the publisher takes it to read. *)
Theorem c117_listed_reads ops s evs p x c e u k v : usual ops -> runs ops s evs -> fits (wd_net s) -> publisher s p x c e u -> lists e k v ->
  exists a b s1 evs1 q y c' e' rc r, ops = a ++ b /\ runs a s1 evs1 /\ subscriber s1 q y c' e' rc r /\ k = key c' e' /\ ne_name e' = ne_name e /\ hears_from c c' /\ snd v = reads_from rc.
Proof. exact (listed_reads ops s evs p x c e u k v). Qed.
Print Assumptions c117_listed_reads.
Example c117_listed_reads_case : exists s evs c e u v, usual wd_left /\ runs wd_left s evs /\ fits (wd_net s) /\ publisher s 1 0 c e u /\
  lists e (SubInfo (str "h2") 12 (str "201")) v /\ snd v = SubLayers true false false.
Proof. exact wd_left_case. Qed.

(** A send of a publisher that lists a subscriber puts one packet on each of its layers and on no
    other; it returns the size of the payload if one of them has answered well, and 0 if none has.
    If it lists nobody nothing is sent and the size is returned. *)
Theorem c117_send ops s evs p x c e u pay time okS okU okT : usual (ops ++ [WdSend p x pay time okS okU okT]) -> runs ops s evs -> publisher s p x c e u ->
  exists s' new n, runs (ops ++ [WdSend p x pay time okS okU okT]) s' (evs ++ [EvRet p x n]) /\ wd_packets s' = wd_packets s ++ new /\
    ((exists k v, lists e k v) -> map layer_of_packet new = WrSpec.layers_of (wu_w u) /\
       ((exists l, uses u l /\ answer okS okU okT l = true) -> n = length pay) /\ ((forall l, uses u l -> answer okS okU okT l = false) -> n = 0)) /\
    ((forall k v, ~ lists e k v) -> new = [] /\ n = length pay).
Proof. exact (send_all ops s evs p x c e u pay time okS okU okT). Qed.
Print Assumptions c117_send.
Example c117_send_case : wd_sent (wd_setup ++ [WdSend 1 0 [1; 2]%Z 100 true true true]) = Some [] /\ wd_sent wd_talk = Some [tl_udp; tl_udp] /\
  wd_sent (wd_left ++ [WdSend 1 0 [1]%Z 5 true true true]) = Some [tl_udp; tl_tcp] /\
  wd_seen (wd_talk ++ [WdSend 1 0 [1]%Z 5 true false true]) = Some [EvOut 2 0 (ROBool true); EvRet 1 0 2; EvRet 1 0 1; EvRet 1 0 2; EvRet 1 0 0].
Proof. vm_compute. auto. Qed.

(** Whenever a packet of a send arrives at a process with a subscriber of the topic that still
    takes the message, its callback is called with the payload, time, number and id of that send. *)
Theorem c117_arrives a s evs p x c e u pay time okS okU okT s1 evs1 b s2 evs2 i pk q y c' e' rc r k j :
  let ops := a ++ WdSend p x pay time okS okU okT :: b in
  usual ops -> runs a s evs -> publisher s p x c e u -> runs (a ++ [WdSend p x pay time okS okU okT]) s1 evs1 ->
  length (wd_packets s) <= i -> nth_error (wd_packets s1) i = Some pk ->
  runs ops s2 evs2 -> subscriber s2 q y c' e' rc r -> ne_name e' = ne_name e -> rd_cb r = Some k -> welcome rc r (message e u pay time (layer_of_packet pk)) ->
  exists s3 ev, wd_step (WdPacket q i j) s2 = Some (s3, ev) /\ In (EvOut q y (ROCallback k (message e u pay time (layer_of_packet pk)))) ev.
Proof. exact (arrives a s evs p x c e u pay time okS okU okT s1 evs1 b s2 evs2 i pk q y c' e' rc r k j). Qed.
Print Assumptions c117_arrives.
Example c117_arrives_case : exists h1 h2, option_map (called_at 2 0) (wd_seen wd_heard) =
  Some [Msg (str "100") [3]%Z 0 2 200 h1 tl_udp; Msg (str "100") [4; 5]%Z 9 3 300 h2 tl_udp].
Proof. eexists. eexists. vm_compute. reflexivity. Qed.

(** Every callback of a subscriber reports a message that some publisher of its topic has sent, with
    that publisher's id and with the payload, time, number and id of that send, over a layer that
    publisher wrote to, at a moment when it listed a subscriber. *)
Theorem c117_true_callback a b s evs s' evs' q y c e rc r m : usual (a ++ b) -> runs a s evs -> subscriber s q y c e rc r ->
  ~ In (WdNet (NDestroy q SubSide y)) b -> runs (a ++ b) s' (evs ++ evs') -> In m (called_at q y evs') -> was_sent (a ++ b) (ne_name e) m.
Proof. exact (true_callback a b s evs s' evs' q y c e rc r m). Qed.
Print Assumptions c117_true_callback.
Example c117_true_callback_case : exists b s evs s' evs' c e r, wd_heard = wd_setup ++ b /\ usual wd_heard /\ runs wd_setup s evs /\ subscriber s 2 0 c e wd_rc r /\
  ~ In (WdNet (NDestroy 2 SubSide 0)) b /\ runs wd_heard s' (evs ++ evs') /\ map m_payload (called_at 2 0 evs') = [[3]; [4; 5]]%Z.
Proof. exact wd_heard_case. Qed.

(** So does every successful read without a callback. *)
Theorem c117_true_read a s evs q y c e rc r s' evs' bs time : usual a -> runs a s evs -> subscriber s q y c e rc r ->
  wd_step (WdUser q y RRead) s = Some (s', evs') -> In (EvOut q y (RORead (Some (bs, time)))) evs' -> exists m, was_sent a (ne_name e) m /\ m_payload m = bs /\ m_time m = time.
Proof. exact (true_read a s evs q y c e rc r s' evs' bs time). Qed.
Print Assumptions c117_true_read.
Example c117_true_read_case : exists evs, wd_seen (wd_talk ++ [WdUser 2 0 RRemCallback; WdPacket 2 0 0; WdUser 2 0 RRead]) = Some evs /\
  In (EvOut 2 0 (RORead (Some ([3]%Z, 200%Z)))) evs.
Proof. eexists. split; [vm_compute; reflexivity|]. repeat (first [left; reflexivity|right]). Qed.

(** A subscriber that drops what arrives out of order gets the messages of each publisher in the
    order of their numbers and none twice, however often and in whatever order packets arrive on
    whatever layers. *)
Theorem c117_in_order a b s evs s' evs' q y c e rc r tid : usual (a ++ b) -> runs a s evs -> subscriber s q y c e rc r ->
  ~ In (WdNet (NDestroy q SubSide y)) b -> runs (a ++ b) s' (evs ++ evs') -> rc_drop_ooo rc = true -> increasing (clocks_of tid (called_at q y evs')).
Proof. exact (in_order a b s evs s' evs' q y c e rc r tid). Qed.
Print Assumptions c117_in_order.
Example c117_in_order_case : exists evs, wd_seen (wd_talk ++ [WdPacket 2 1 0; WdPacket 2 0 0; WdPacket 2 1 0]) = Some evs /\ clocks_of (str "100") (called_at 2 0 evs) = [3]%Z.
Proof. eexists. split; vm_compute; reflexivity. Qed.

(** From nothing known to the callback: given a publisher and a subscriber of the same topic
    that have a layer in common, one registration cycle of the subscriber's process whose registration
    reaches the publisher's process is enough.  The next send puts a packet on that layer, and when it
    arrives at the subscriber its callback is called with the message. *)
Theorem c117_whole_way ops s0 evs0 p x cp ew u q y cq er rc r k l : runs ops s0 evs0 -> publisher s0 p x cp ew u -> subscriber s0 q y cq er rc r ->
  ne_name ew = ne_name er -> hears_from cp cq -> rd_cb r = Some k -> layer_for u (key cq er) (tp_dtype (ne_rest er), reads_from rc) l ->
  forall t1, exists i, forall t2 pay time okS okU okT,
    let way := [WdNet (NCollect q t1); WdNet (NDeliver p i t2); WdSend p x pay time okS okU okT] in
    usual (ops ++ way) -> (forall s evs, runs (ops ++ way) s evs -> fits (wd_net s)) -> welcome rc r (message ew u pay time l) ->
    exists n, forall j, exists s evs, runs (ops ++ way ++ [WdPacket q n j]) s (evs0 ++ evs) /\ In (EvOut q y (ROCallback k (message ew u pay time l))) evs.
Proof. exact (whole_way ops s0 evs0 p x cp ew u q y cq er rc r k l). Qed.
Print Assumptions c117_whole_way.
Example c117_whole_way_case : exists s0 evs0 cp ew u cq er rc r, runs wd_setup s0 evs0 /\ publisher s0 1 0 cp ew u /\ subscriber s0 2 0 cq er rc r /\
  ne_name ew = ne_name er /\ hears_from cp cq /\ rd_cb r = Some 5 /\ layer_for u (key cq er) (tp_dtype (ne_rest er), reads_from rc) tl_udp /\ (forall pay time, welcome rc r (message ew u pay time tl_udp)) /\
  exists h, option_map (called_at 2 0) (wd_seen (wd_setup ++ [WdNet (NCollect 2 0); WdNet (NDeliver 1 0 1); WdSend 1 0 [7]%Z 5 true true true] ++ [WdPacket 2 0 0])) =
    Some [Msg (str "100") [7]%Z 0 1 5 h tl_udp].
Proof. exact wd_way_case. Qed.

(** Wrong: a publisher writes only to layers some listed subscriber reads.  A layer that was started
    is never stopped while the publisher lives: after the only subscriber of a layer has left, everything is
    still written to it (ecal_writer.cpp 464-480 starts layers, nothing stops them but Stop). *)
Theorem c117_layer_stays_refuted : exists ops s evs p x c e u l, usual ops /\ runs ops s evs /\ fits (wd_net s) /\ publisher s p x c e u /\ uses u l /\
  (exists k v, lists e k v) /\ forall k v, lists e k v -> ~ layer_for u k v l.
Proof. exact wd_layer_stays. Qed.
Print Assumptions c117_layer_stays_refuted.

(** Wrong: a send that returns the size of the payload has put the message on some layer.  Of a publisher
    that lists nobody it returns the size and sends nothing; a subscriber that exists already, but
    has not been heard of, misses the message (ecal_publisher.cpp 150-160). *)
Theorem c117_unheard_refuted : exists ops s evs p x c e u q y c' e' rc r pay time s', usual ops /\ runs ops s evs /\ publisher s p x c e u /\ subscriber s q y c' e' rc r /\ ne_name e = ne_name e' /\
  hears_from c c' /\ hears_from c' c /\ pay <> [] /\ wd_step (WdSend p x pay time true true true) s = Some (s', [EvRet p x (length pay)]) /\ wd_packets s' = wd_packets s.
Proof. exact wd_unheard. Qed.
Print Assumptions c117_unheard_refuted.

(** Wrong: a subscriber gets messages only of publishers it lists.  What arrives is handed on by the
    name of the topic alone: GetPublisherCount is 0 and the callback is called all the same
    (ecal_subgate.cpp 185-210). *)
Theorem c117_stranger_refuted : exists ops s evs q y c e rc r i s' ev k m, usual ops /\ runs ops s evs /\ fits (wd_net s) /\ subscriber s q y c e rc r /\ (forall k' v, ~ lists e k' v) /\
  wd_step (WdPacket q i 0) s = Some (s', ev) /\ In (EvOut q y (ROCallback k m)) ev.
Proof. exact wd_stranger. Qed.
Print Assumptions c117_stranger_refuted.
