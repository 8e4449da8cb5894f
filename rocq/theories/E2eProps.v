(** C96: messages on their whole way from the publisher to the subscriber. *)
From Verif Require Import Base Sample PbModel PbSpec WrModel WrSpec RdModel RdSpec UdpModel E2eModel E2eSpec E2eProofs.
From Verif Require ShmModel.

(** C96: the n-th send of a publisher is well defined. *)
Theorem c96_nth_send_unique : forall calls n pay time id pay' time' id',
  nth_send calls n pay time id -> nth_send calls n pay' time' id' -> pay = pay' /\ time = time' /\ id = id'.
Proof. exact nth_send_unique. Qed.
Print Assumptions c96_nth_send_unique.

(** C96: everything a publisher hands to its UDP or TCP layer becomes a packet that carries one of its sends. *)
Theorem c96_udp_packet : forall p calls t, transmits p calls t -> tx_layer t = tl_udp ->
  exists n k, udp_out p t = Some k /\ carries p calls n k /\ 0 < n <= sends calls.
Proof. exact udp_packet. Qed.
Print Assumptions c96_udp_packet.
Theorem c96_tcp_packet : forall p calls t, ordinary p calls -> transmits p calls t -> tx_layer t = tl_tcp ->
  exists n k, tcp_out p t = Some k /\ carries p calls n k /\ 0 < n <= sends calls.
Proof. exact tcp_packet. Qed.
Print Assumptions c96_tcp_packet.

(** C96: whatever packets of whatever publishers arrive over the three layers, lost, repeated and reordered, and whatever the
    user does: a message given to the receive callback is a send of a publisher of the topic, with exactly its payload, id,
    time and number. *)
Theorem c96_only_what_was_sent : forall net topic c is m, sane net -> Forall (from_network net) is ->
  In m (called (snd (nd_run topic c is node0))) -> exists p calls n, In (p, calls) net /\ p_topic p = topic /\ is_send p calls n m.
Proof. exact called_sound. Qed.
Print Assumptions c96_only_what_was_sent.
(** C96: the same for the bytes and time a receive call returns. *)
Theorem c96_only_what_was_sent_read : forall net topic c is bs time, sane net -> Forall (from_network net) is ->
  In (RORead (Some (bs, time))) (snd (nd_run topic c is node0)) -> exists p calls n id, In (p, calls) net /\ p_topic p = topic /\ nth_send calls n bs time id.
Proof. exact read_sound. Qed.
Print Assumptions c96_only_what_was_sent_read.

(** C96: with dropping of out-of-order messages on, the callback sees the sends of each publisher in the order of sending, none twice. *)
Theorem c96_in_order_at_most_once : forall net topic c is tid, sane net -> Forall (from_network net) is -> rc_drop_ooo c = true ->
  increasing (clocks_of tid (called (snd (nd_run topic c is node0)))).
Proof. exact called_increasing. Qed.
Print Assumptions c96_in_order_at_most_once.

(** C96: with one publisher of the topic, the callback sees exactly the sends that arrive before all later ones: a message is
    delivered unless the same or a later one has arrived before. *)
Theorem c96_exactly_the_newest : forall p calls c k ks ns, ordinary p calls ->
  rc_udp c = true -> rc_shm c = true -> rc_tcp c = true -> rc_drop_ooo c = true -> mixed p calls ks ns ->
  Forall2 (is_send p calls) (records ns) (called (snd (nd_run (p_topic p) c (IUser (RSetCallback k) :: map IPacket ks) node0))).
Proof. exact all_delivered. Qed.
Print Assumptions c96_exactly_the_newest.
(** C96: if all arrive in order, each at least once, all are delivered, each exactly once. *)
Theorem c96_in_order_all_delivered : forall p calls c k ks times N, ordinary p calls ->
  rc_udp c = true -> rc_shm c = true -> rc_tcp c = true -> rc_drop_ooo c = true ->
  (forall n, 0 < times n) -> mixed p calls ks (flat_map (fun n => repeat n (times n)) (seq 1 N)) ->
  Forall2 (is_send p calls) (seq 1 N) (called (snd (nd_run (p_topic p) c (IUser (RSetCallback k) :: map IPacket ks) node0))).
Proof. exact all_in_order. Qed.
Print Assumptions c96_in_order_all_delivered.

Example c96_example : ordinary ex_pub ex_calls /\ mixed ex_pub ex_calls [ex_shm; ex_udp 1; ex_udp 3; ex_udp 2] [1; 1; 3; 2] /\ records [1; 1; 3; 2] = [1; 3] /\
  sane [(ex_pub, ex_calls)] /\ Forall (from_network [(ex_pub, ex_calls)]) (map IPacket [ex_shm; ex_udp 1; ex_udp 3; ex_udp 2]) /\
  map (fun m => (m_payload m, m_id m, m_clock m, m_time m, m_layer m))
    (called (snd (nd_run (str "speed") (RCfg true true true true) (IUser (RSetCallback 4) :: map IPacket [ex_shm; ex_udp 1; ex_udp 3; ex_udp 2]) node0))) =
  [([1; 2], 0, 1, 100, tl_shm); ([9], 5, 3, 300, tl_udp)]%Z /\
  In (RORead (Some ([1; 2], 100)%Z)) (snd (nd_run (str "speed") (RCfg true true true true) [IPacket ex_shm; IUser RRead] node0)) /\
  nd_run (str "other") (RCfg true true true true) (IUser (RSetCallback 4) :: map IPacket [ex_shm; ex_udp 1]) node0 =
    (Node Listening (nd_tcp node0) (set_cb rd_new (Some 4)), [ROBool true]).
Proof.
  pose proof (ex_udp_carries 1 ltac:(auto)) as C1. pose proof (ex_udp_carries 2 ltac:(auto)) as C2. pose proof (ex_udp_carries 3 ltac:(auto)) as C3. pose proof ex_shm_carries as C4.
  split; [exact ex_ordinary|]. split; [repeat (constructor; [assumption|]); constructor|]. split; [reflexivity|].
  split; [intros p calls [E|[]]; injection E as <- <-; exact ex_ordinary|].
  split; [repeat constructor; exists ex_pub, ex_calls; eexists; (split; [now left|eassumption])|].
  split; [vm_compute; reflexivity|]. split; [vm_compute; tauto|vm_compute; reflexivity].
Qed.
