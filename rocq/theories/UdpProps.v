(** Properties C35 (datagrams) and C36 (multicast memberships). *)
From Verif Require Import Base Sample UdpModel UdpSpec UdpProofs.

(** C35: name and payload arrive as sent, for names without zero bytes and of less than 65535 bytes. *)
Theorem c35_round_trip_partial : forall name payload, no_zero name -> (Z.of_nat (length name) < 65535)%Z ->
  receive (datagram name payload) = RxSample name payload.
Proof. exact round_trip. Qed.
Print Assumptions c35_round_trip_partial.

(** C35: all of any number of messages arrive, in order; only those asked for are handed over. *)
Theorem c35_all_received_partial : forall has (l : list (text * text)), Forall (fun m => no_zero (fst m) /\ (Z.of_nat (length (fst m)) < 65535)%Z) l ->
  rx_run has (map (fun m => RxArrive (datagram (fst m) (snd m))) l) Listening = (Listening, map snd (filter (fun m => has (fst m)) l)).
Proof. exact run_messages. Qed.
Print Assumptions c35_all_received_partial.

(** C35, for any bytes: a datagram is accepted exactly if its sizes fit and there is a zero terminated string
    at the place of the name. *)
Theorem c35_accepted : forall bs name payload, Forall (fun c => (0 <= c < 256)%Z) bs -> receive bs = RxSample name payload <-> well_formed bs name payload.
Proof. exact accepted_lemma. Qed.
Print Assumptions c35_accepted.

(** C35, for any bytes: what is rejected. *)
Theorem c35_rejected : forall bs, Forall (fun c => (0 <= c < 256)%Z) bs -> receive bs = RxDamaged <->
  exists b0 b1 rest, bs = b0 :: b1 :: rest /\ (b0 + 256 * b1 > Z.of_nat (length rest))%Z /\ (no_zero rest -> (b0 + 256 * b1 > Z.of_nat (length rest) + 2)%Z).
Proof. exact rejected_lemma. Qed.
Print Assumptions c35_rejected.

(** C35: without damaged datagrams the receiver goes on listening. *)
Theorem c35_keeps_listening_partial : forall has l, Forall (fun bs => Forall (fun c => (0 <= c < 256)%Z) bs /\ good bs) l ->
  fst (rx_run has (map RxArrive l) Listening) = Listening.
Proof. exact good_listening. Qed.
Print Assumptions c35_keeps_listening_partial.

Example c35_example : datagram (str "ab") [7; 0; 9]%Z = [3; 0; 97; 98; 0; 7; 0; 9]%Z /\ receive [3; 0; 97; 98; 0; 7; 0; 9]%Z = RxSample (str "ab") [7; 0; 9]%Z /\
  receive [200; 0; 97; 0]%Z = RxDamaged /\ well_formed [3; 0; 97; 98; 0; 7]%Z (str "ab") [7]%Z.
Proof.
  repeat split; try reflexivity. exists 3%Z, 0%Z, [97; 98; 0]%Z. repeat split; [|exists [7]%Z; reflexivity].
  intros [H|[H|[]]]; discriminate.
Qed.

(** C35 is refuted: exactly the datagrams of less than two bytes and those whose announced size seems to fit but
    which contain no zero are read beyond their end; a three byte datagram suffices. *)
Theorem c35_reads_outside_refuted : (forall bs, receive bs = RxOutside <->
  length bs < 2 \/ exists b0 b1 rest, bs = b0 :: b1 :: rest /\ (b0 + 256 * b1 <= Z.of_nat (length rest) + 2)%Z /\ no_zero rest) /\ receive [1; 0; 97]%Z = RxOutside.
Proof. split; [exact outside_lemma|reflexivity]. Qed.
Print Assumptions c35_reads_outside_refuted.
(** C35 is refuted: after a damaged datagram, or an error of the socket, nothing is received any more. *)
Theorem c35_deaf_refuted : forall has bs later, receive bs = RxDamaged -> rx_run has (RxArrive bs :: later) Listening = (Deaf, []).
Proof. exact deaf_lemma. Qed.
Print Assumptions c35_deaf_refuted.
Theorem c35_deaf_after_error_refuted : forall has later, rx_run has (RxError :: later) Listening = (Deaf, []).
Proof. exact error_lemma. Qed.
Print Assumptions c35_deaf_after_error_refuted.
(** C35 is refuted: a topic name of 65535 bytes or more makes the receiver read outside, unless the
    payload contains a zero. *)
Theorem c35_long_name_refuted : forall name payload, no_zero name -> no_zero payload -> (Z.of_nat (length name) >= 65535)%Z ->
  receive (datagram name payload) = RxOutside.
Proof. exact long_name. Qed.
Print Assumptions c35_long_name_refuted.
(** C35 is refuted: the name is not compared with its announced size; here the payload begins within the name. *)
Theorem c35_name_size_ignored_refuted : receive [1; 0; 97; 98; 0]%Z = RxSample (str "ab") [98; 0]%Z.
Proof. reflexivity. Qed.
Print Assumptions c35_name_size_ignored_refuted.

(** C36, with a network, for every assignment of topics to groups: if no two threads are inside the
    layer at a time and the joins succeed, the process is member of exactly the groups that some subscriber needs
    (besides the base group). *)
Theorem c36_members_partial : forall base addr ops s tr, u_run false base addr ops ulayer0 = Some (s, tr) -> ul_race s = false -> joins_succeed tr ->
  forall a, a <> base -> In a (ul_members s) <-> needed addr ops a = true.
Proof. exact members_lemma. Qed.
Print Assumptions c36_members_partial.
(** C36: every subscriber's group is joined, also if it is the base group. *)
Theorem c36_subscriber_served_partial : forall base addr ops s tr, u_run false base addr ops ulayer0 = Some (s, tr) -> ul_race s = false -> joins_succeed tr ->
  forall sub topic, In (sub, topic) (subscribers ops) -> In (addr topic) (ul_members s).
Proof. exact needed_member. Qed.
Print Assumptions c36_subscriber_served_partial.
(** C36: even if joins fail, no group is kept without a subscriber. *)
Theorem c36_no_stale_member_partial : forall base addr ops s tr, u_run false base addr ops ulayer0 = Some (s, tr) -> ul_race s = false ->
  forall a, In a (ul_members s) -> a = base \/ needed addr ops a = true.
Proof. exact members_sound. Qed.
Print Assumptions c36_no_stale_member_partial.
(** C36: one join and one leave per period in which the group is needed. *)
Theorem c36_turns_partial : forall base addr ops s tr, u_run false base addr ops ulayer0 = Some (s, tr) -> ul_race s = false ->
  forall a, a <> base -> turns (moves a tr) (needed addr ops a).
Proof. exact turns_lemma. Qed.
Print Assumptions c36_turns_partial.
(** C36: in local mode no group is joined. *)
Theorem c36_local : forall base addr ops s tr, u_run true base addr ops ulayer0 = Some (s, tr) -> tr = [] /\ ul_members s = [].
Proof. exact local_lemma. Qed.
Print Assumptions c36_local.

Example c36_example : let addr t := if eqb t (str "c") then str "g2" else str "g1" in
  let ops := [UAdd 1 1 (str "a") true true; ULeave 1; UAdd 2 2 (str "b") true true; ULeave 2; UAdd 1 3 (str "c") true true; ULeave 1; URem 1 1; ULeave 1; URem 1 3; ULeave 1] in
  exists s, u_run false (str "g0") addr ops ulayer0 = Some (s, [UJoin (str "g0") true; UJoin (str "g1") true; UJoin (str "g2") true; ULeft (str "g2")]) /\
  ul_members s = [str "g1"; str "g0"] /\ ul_race s = false /\ needed addr ops (str "g1") = true /\ needed addr ops (str "g2") = false.
Proof. cbv zeta. eexists. split; [vm_compute; reflexivity|]. repeat split; vm_compute; reflexivity. Qed.

(** C36 is refuted: a join that failed is not tried again, however many subscribers of the topic are created. *)
Theorem c36_failed_join_refuted : forall base addr topic n, addr topic <> base ->
  exists s, u_run false base addr ([UAdd 1 0 topic false true; ULeave 1] ++ subscribe_again topic n 1) ulayer0 = Some (s, [UJoin base true; UJoin (addr topic) false]) /\
  ~ In (addr topic) (ul_members s) /\ needed addr ([UAdd 1 0 topic false true; ULeave 1] ++ subscribe_again topic n 1) (addr topic) = true.
Proof. exact failed_join. Qed.
Print Assumptions c36_failed_join_refuted.
(** C36 is refuted: the layer takes no lock; two threads that create subscribers race on its table. *)
Theorem c36_race_refuted : forall base addr, exists s tr, u_run false base addr [UAdd 1 1 (str "a") true true; UAdd 2 2 (str "b") true true] ulayer0 = Some (s, tr) /\ ul_race s = true.
Proof. exact race_lemma. Qed.
Print Assumptions c36_race_refuted.
