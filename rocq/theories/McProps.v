(** Property C34: multicast address of a topic. *)
From Verif Require Import Base Sample McModel McSpec McProofs.
Open Scope Z_scope.

(** Version 2, for every topic, group and mask and a size_t of 32 bits or more: the address is well formed, has
    the network bits of the group and the host bits of the hash of the topic (or those of the group's successor,
    if the hash would lead to the group's own address); it is not the address of the group if the last bit of
    the mask is free. *)
Theorem c34_v2_partial : forall k topic base mask b m, 32 <= k -> Forall octet topic -> denotes base b -> denotes mask m ->
  exists s x, v2_topic2mcast (2^k) topic base mask = Some s /\ denotes s x /\ same_network m x b /\
    (host_bits_of m x (fnv32 topic) \/ (host_bits_of m x (b + 1) /\ host_bits_of m (fnv32 topic) b)) /\
    (Z.testbit m 0 = false -> x <> b /\ s <> base).
Proof. exact v2_lemma. Qed.
Print Assumptions c34_v2_partial.

(** Version 2: for any strings as group and mask, what comes out is a well formed address. *)
Theorem c34_v2_well_formed : forall k topic base mask s, 32 <= k -> Forall octet topic -> v2_topic2mcast (2^k) topic base mask = Some s -> exists x, denotes s x.
Proof. exact v2_any. Qed.
Print Assumptions c34_v2_well_formed.

(** Version 2: topics of a multicast group have multicast addresses, if the mask keeps the first four bits. *)
Theorem c34_v2_multicast : forall k topic base mask b m, 32 <= k -> Forall octet topic -> denotes base b -> denotes mask m -> multicast b ->
  ipv4 240 0 0 0 <= m -> exists s x, v2_topic2mcast (2^k) topic base mask = Some s /\ denotes s x /\ multicast x.
Proof. exact v2_multicast. Qed.
Print Assumptions c34_v2_multicast.

(** Addresses parse to the number they denote. *)
Theorem c34_parse : forall s x, denotes s x -> parse_ipv4 s = Some x /\ 0 <= x < 2^32.
Proof. exact denotes_parse. Qed.
Print Assumptions c34_parse.
Theorem c34_serialize : forall x, 0 <= x < 2^32 -> denotes (serialize_ipv4 x) x.
Proof. exact serialize_denotes. Qed.
Print Assumptions c34_serialize.

Example c34_example : v2_topic2mcast (2^64) (str "person") (str "239.0.0.1") (str "255.255.255.240") = Some (str "239.0.0.6") /\
  v2_topic2mcast (2^32) (str "person") (str "239.0.0.1") (str "255.255.255.240") = Some (str "239.0.0.6") /\
  denotes (str "239.0.0.1") (ipv4 239 0 0 1) /\ multicast (ipv4 239 0 0 1) /\ Z.testbit (ipv4 255 255 255 240) 0 = false.
Proof.
  split; [vm_compute; reflexivity|]. split; [vm_compute; reflexivity|]. split; [exists 239, 0, 0, 1; unfold octet; repeat split; lia|].
  split; [split; vm_compute; discriminate|reflexivity].
Qed.

(** Refuted: a mask without host bits puts every topic on the address of the registration. *)
Theorem c34_v2_full_mask_refuted : forall k topic base b, 32 <= k -> Forall octet topic -> denotes base b ->
  exists s, v2_topic2mcast (2^k) topic base (dotted 255 255 255 255) = Some s /\ denotes s b.
Proof. exact full_mask_lemma. Qed.
Print Assumptions c34_v2_full_mask_refuted.
(** Refuted: a mask with host bits but a fixed last bit does so for some topics. *)
Theorem c34_v2_fixed_last_bit_refuted : v2_topic2mcast (2^64) (str "b") (str "239.0.0.0") (str "255.255.255.253") = Some (str "239.0.0.0").
Proof. vm_compute. reflexivity. Qed.
Print Assumptions c34_v2_fixed_last_bit_refuted.

(** Version 1, for a group whose first octet has three digits: the last three octets are those of the hash under
    the mask (so the mask says which bits vary), the last one is at least 2. *)
Theorem c34_v1_partial : forall k topic a b c d m0 m1 m2 m3, 32 <= k -> Forall octet topic -> 100 <= a < 256 -> octet m0 -> octet m1 -> octet m2 -> octet m3 ->
  exists x3, v1_topic2mcast (2^k) topic (dotted a b c d) (dotted m0 m1 m2 m3) =
    Some (dotted a (Z.land (fnv32 topic / 2^16) m1) (Z.land (fnv32 topic / 2^8) m2) x3) /\
    2 <= x3 < 256 /\ (x3 = Z.land (fnv32 topic) m3 \/ x3 = 2 /\ Z.land (fnv32 topic) m3 < 2).
Proof. exact v1_lemma. Qed.
Print Assumptions c34_v1_partial.

(** Version 1: a group that ends in 0 or 1 is not the address of a topic. *)
Theorem c34_v1_not_base_partial : forall k topic a b c d m0 m1 m2 m3, 32 <= k -> Forall octet topic -> 100 <= a < 256 -> octet b -> octet c -> 0 <= d < 2 ->
  octet m0 -> octet m1 -> octet m2 -> octet m3 ->
  v1_topic2mcast (2^k) topic (dotted a b c d) (dotted m0 m1 m2 m3) <> Some (dotted a b c d).
Proof. exact v1_not_base. Qed.
Print Assumptions c34_v1_not_base_partial.

Example c34_v1_example : v1_topic2mcast (2^64) (str "person") (str "239.0.0.1") (str "0.0.0.15") = Some (str "239.0.0.6") /\
  v1_topic2mcast (2^64) (str "person") (str "239.0.0.1") (str "0.255.255.255") = v1_topic2mcast (2^64) (str "person") (str "239.0.0.1") [].
Proof. split; vm_compute; reflexivity. Qed.

(** Refuted for version 1: the second to fourth octet of the group are ignored, so that topics of the group
    239.5.0.1 are sent outside of 239.5.0.0/16, whatever they are. *)
Theorem c34_v1_group_ignored_refuted : forall k topic, 32 <= k -> Forall octet topic ->
  exists x, v1_topic2mcast (2^k) topic (dotted 239 5 0 1) (dotted 0 0 0 15) = Some (dotted 239 0 0 x) /\ 2 <= x < 16.
Proof. exact v1_outside. Qed.
Print Assumptions c34_v1_group_ignored_refuted.
(** Refuted for version 1: a group whose first octet has two digits gives a malformed address. *)
Theorem c34_v1_malformed_refuted : v1_topic2mcast (2^64) (str "person") (str "10.0.0.1") (str "0.0.0.15") = Some (str "10..0.0.6").
Proof. vm_compute. reflexivity. Qed.
Print Assumptions c34_v1_malformed_refuted.

(** In local mode every topic and the registration use the broadcast address of the loopback network; in network
    mode the registration uses the group. *)
Theorem c34_local_mode : forall w c topic, mc_network c = false ->
  topic_address w c topic = Some (str "127.255.255.255") /\ registration_address c = str "127.255.255.255".
Proof. exact local_lemma. Qed.
Print Assumptions c34_local_mode.
Theorem c34_network_mode : forall w c topic, mc_network c = true ->
  topic_address w c topic = (if mc_v1 c then v1_topic2mcast w topic (mc_group c) (mc_mask c) else v2_topic2mcast w topic (mc_group c) (mc_mask c)) /\
  registration_address c = mc_group c.
Proof. exact network_lemma. Qed.
Print Assumptions c34_network_mode.
Example c34_modes : mc_network (McConfig false true (str "239.0.0.1") (str "0.0.0.15")) = false /\ mc_network (McConfig true true [] []) = true.
Proof. split; reflexivity. Qed.
