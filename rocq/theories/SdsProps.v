(** C114: services of other processes are found. *)
From Verif Require Import Base Sample ExpMapModel PbModel PbSpec SerModel SerSpec UdpModel SdsModel SdsSpec SdsProofs.

(** No run leads to undefined behaviour: not to a damaged table, not to a receiver reading past
    its buffer. *)
Theorem c114_always_defined : forall ops,
  exists s, dreach ops s /\ forall p q, aget p (dn_procs s) = Some q -> px_rx q = Listening.
Proof. exact defined_lemma. Qed.
Print Assumptions c114_always_defined.
Example c114_run_ex :
  d_view d_found 2 0 = Some ([d_fact (str "100") 11 (str "h1") 4000 4001], true, []) /\
  d_view (d_found ++ [DAt 2 (PCall 0)]) 2 0 = Some ([d_fact (str "100") 11 (str "h1") 4000 4001], true, [d_ses (str "h1") 4001]).
Proof. split; vm_compute; reflexivity. Qed.
Example c114_sane_ex : Forall dsane [d_found; d_gone; d_slow; d_lost; d_group; d_self; d_mute; d_late; d_first ++ d_second].
Proof. exact examples_sane. Qed.

(** Whatever a process knows of services is true: at some moment there was such a server, with this
    name, id, process, host and these ports, and the process listens to its host; the exception is
    an entry without any content, from a server that does not listen on a port. *)
Theorem c114_known_is_real : forall ops s p c a,
  dsane ops -> dreach ops s -> dfits s -> runs s p c -> knows s p a -> real ops c a.
Proof. exact known_lemma. Qed.
Print Assumptions c114_known_is_real.
Example c114_known_ex : exists s, dreach d_found s /\ runs s 2 d_cb /\ knows s 2 (d_fact (str "100") 11 (str "h1") 4000 4001).
Proof.
  eexists. split; [vm_compute; reflexivity|]. split; [eexists; split; reflexivity|]. eexists. split; [reflexivity|]. vm_compute. tauto.
Qed.

(** So is what a client counts as connected, and all of it has the name of the client's service. *)
Theorem c114_counted_is_real : forall ops s p x c d k a,
  dsane ops -> dreach ops s -> dfits s -> client_of s p x c d -> In (k, a) (cx_conn d) ->
  k = ca_key a /\ ca_name a = cx_name d /\ real ops c a.
Proof. exact counted_lemma. Qed.
Print Assumptions c114_counted_is_real.
Example c114_counted_ex : exists s d, dreach d_found s /\ client_of s 2 0 d_cb d /\ counts d (d_fact (str "100") 11 (str "h1") 4000 4001).
Proof.
  eexists. eexists. split; [vm_compute; reflexivity|]. split; [eexists; split; [reflexivity|]; split; reflexivity|]. vm_compute. tauto.
Qed.

(** And every session leads to the host and the better port of a real server of the client's service. *)
Theorem c114_session_is_right : forall ops s p x c d k z,
  dsane ops -> dreach ops s -> dfits s -> client_of s p x c d -> session d k z ->
  exists a pt proto, k = ca_key a /\ ca_name a = cx_name d /\ real ops c a /\ leads z (ca_host a) pt proto /\ best a pt proto.
Proof. exact session_lemma. Qed.
Print Assumptions c114_session_is_right.
Example c114_session_ex : exists s d, dreach (d_found ++ [DAt 2 PCollect]) s /\ client_of s 2 0 d_cb d /\
  session d (ca_key (d_fact (str "100") 11 (str "h1") 4000 4001)) (d_ses (str "h1") 4001).
Proof.
  eexists. eexists. split; [vm_compute; reflexivity|]. split; [eexists; split; [reflexivity|]; split; reflexivity|]. vm_compute. tauto.
Qed.

(** Every cycle of a process announces each of its servers, with its current methods and ports. *)
Theorem c114_cycle_announces : forall ops s s' p x c e,
  dsane ops -> dreach ops s -> server s p x c e -> dreach (ops ++ [DAt p PCollect]) s' ->
  exists i m, length (dn_sent s) <= i /\ nth_error (dn_sent s') i = Some m /\ server s' p x c e /\
    ((listening c e /\ tells c e m) \/ (~ listening c e /\ attr_of m = nobody)).
Proof. exact cycle_lemma. Qed.
Print Assumptions c114_cycle_announces.
Example c114_cycle_ex : exists s e, dreach d_setup s /\ server s 1 0 d_ca e /\ listening d_ca e.
Proof.
  eexists. eexists. split; [vm_compute; reflexivity|]. split; [eexists; split; [reflexivity|]; split; reflexivity|]. split; intros _; discriminate.
Qed.

(** A registration that arrives at a process which listens to its sender is known at once, and every
    client of a service of that name counts it as connected. *)
Theorem c114_heard : forall ops s1 s p c i t m,
  dsane (ops ++ [DAt p (PHear i t)]) -> dreach ops s1 -> dreach (ops ++ [DAt p (PHear i t)]) s -> dfits s -> dsteady p (ops ++ [DAt p (PHear i t)]) ->
  runs s1 p c -> nth_error (dn_sent s1) i = Some m -> registers m -> minds c (sm_host m) (sm_pid m) ->
  exists a, told a m /\ knows s p a /\
    forall x d, client_of s1 p x c d -> cx_name d = ca_name a ->
    exists d' a', client_of s p x c d' /\ cx_name d' = cx_name d /\ counts d' a' /\ ca_key a' = ca_key a.
Proof. exact heard_lemma. Qed.
Print Assumptions c114_heard.
Example c114_heard_ex : dsteady 2 d_found /\ d_view d_setup 2 0 = Some ([], false, []) /\
  exists s1 m, dreach (d_setup ++ [DAt 1 PCollect]) s1 /\ runs s1 2 d_cb /\ nth_error (dn_sent s1) 0 = Some m /\ registers m /\ minds d_cb (sm_host m) (sm_pid m).
Proof.
  split; [cbn; tauto|]. split; [vm_compute; reflexivity|]. eexists. eexists. split; [vm_compute; reflexivity|]. split; [eexists; split; reflexivity|].
  split; [reflexivity|]. split; [reflexivity|]. right. split; [|reflexivity]. intros [X _]. discriminate.
Qed.

(** It stays known, with the same key, as long as no registration arrives more than five seconds
    after it. *)
Theorem c114_known_stays : forall ops1 s1 ops2 s p c i t m,
  dsane (ops1 ++ DAt p (PHear i t) :: ops2) -> dreach ops1 s1 -> dreach (ops1 ++ DAt p (PHear i t) :: ops2) s -> dfits s ->
  dsteady p (ops1 ++ DAt p (PHear i t) :: ops2) ->
  runs s1 p c -> nth_error (dn_sent s1) i = Some m -> registers m -> minds c (sm_host m) (sm_pid m) ->
  (forall j now m', In (DAt p (PHear j now)) ops2 -> nth_error (dn_sent s) j = Some m' -> registers m' -> minds c (sm_host m') (sm_pid m') -> (now - 5000 <= t)%Z) ->
  exists a a', told a m /\ knows s p a' /\ ca_key a' = ca_key a.
Proof. exact stays_lemma. Qed.
Print Assumptions c114_known_stays.
Example c114_stays_ex : dsteady 2 (d_first ++ d_second) /\ (forall j now, In (DAt 2 (PHear j now)) (tl d_second) -> (now - 5000 <= 1000)%Z) /\
  d_view (d_first ++ d_second) 2 0 = Some ([d_fact (str "100") 11 (str "h1") 4000 4001], true, [d_ses (str "h1") 4001]).
Proof.
  split; [cbn; split; [intros u [<-|[]]; discriminate|split; [intros u []|exact Logic.I]]|]. split; [|vm_compute; reflexivity].
  intros j now I1. cbn in I1. destruct I1 as [X|[X|[X|[]]]]; try discriminate. injection X as <- <-. discriminate.
Qed.

(** After a registration has arrived, only services that were heard in the last five seconds are
    known. *)
Theorem c114_silence : forall ops s1 s p c i now m a,
  dsane (ops ++ [DAt p (PHear i now)]) -> dreach ops s1 -> dreach (ops ++ [DAt p (PHear i now)]) s -> dfits s -> dsteady p (ops ++ [DAt p (PHear i now)]) ->
  runs s1 p c -> nth_error (dn_sent s1) i = Some m -> registers m -> minds c (sm_host m) (sm_pid m) -> knows s p a ->
  exists j t m', In (DAt p (PHear j t)) (ops ++ [DAt p (PHear i now)]) /\ (now - 5000 <= t)%Z /\ nth_error (dn_sent s) j = Some m' /\ told a m'.
Proof. exact silence_lemma. Qed.
Print Assumptions c114_silence.
Example c114_silence_ex : d_view d_lost 2 0 = Some ([DAttr (str "other") (str "300") 13 (str "h2") (str "a") (str "u") 1 5000 5001], true, []).
Proof. vm_compute. reflexivity. Qed.

(** A counted service stops being counted exactly when a cycle of the process finds its session
    failed. *)
Theorem c114_disconnects_only : forall ops o s s' p x c d c' d' a,
  dreach ops s -> dreach (ops ++ [o]) s' -> client_of s p x c d -> client_of s' p x c' d' -> counts d a ->
  (counts d' a <-> ~ (o = DAt p PCollect /\ exists z, session d' (ca_key a) z /\ ss_failed z = true)).
Proof. exact disconnects_lemma. Qed.
Print Assumptions c114_disconnects_only.
Example c114_disconnects_ex :
  d_view (d_found ++ [DAt 2 (PCall 0); DAt 2 (PFail 0 (ca_key (d_fact (str "100") 11 (str "h1") 4000 4001))); DAt 2 PCollect]) 2 0 =
  Some ([d_fact (str "100") 11 (str "h1") 4000 4001], false, [DSes 1 [(str "h1", 4001%Z); (str "h1.local", 4001%Z)] true]).
Proof. vm_compute. reflexivity. Qed.

(** A session is never closed, never replaced, never led elsewhere; once failed it stays failed. *)
Theorem c114_session_stays : forall ops o s s' p x c d c' d' k z,
  dreach ops s -> dreach (ops ++ [o]) s' -> client_of s p x c d -> client_of s' p x c' d' -> session d k z ->
  exists z', session d' k z' /\ ss_proto z' = ss_proto z /\ ss_ends z' = ss_ends z /\ (ss_failed z = true -> ss_failed z' = true) /\
    (ss_failed z' = true -> ss_failed z = true \/ o = DAt p (PFail x k)).
Proof. exact session_stays. Qed.
Print Assumptions c114_session_stays.
Example c114_session_stays_ex :
  d_view (d_gone ++ [DAt 2 (PFail 0 (ca_key (d_fact (str "100") 11 (str "h1") 4000 4001))); DAt 2 PCollect; DAt 2 (PHear 0 2500); DAt 2 (PCall 0)]) 2 0 =
  Some ([d_fact (str "100") 11 (str "h1") 4000 4001], true, [DSes 1 [(str "h1", 4001%Z); (str "h1.local", 4001%Z)] true]).
Proof. vm_compute. reflexivity. Qed.

(** A call goes to every known service of that name on the chosen host, and to nothing else. *)
Theorem c114_call_targets : forall ops s p x c d,
  dreach (ops ++ [DAt p (PCall x)]) s -> client_of s p x c d ->
  exists l, calls s p x l /\ (forall k z, In (k, z) l <-> session d k z /\ exists a, k = ca_key a /\ knows s p a /\ takes d a) /\
    (forall a, knows s p a -> takes d a -> exists z, In (ca_key a, z) l).
Proof. exact targets_lemma. Qed.
Print Assumptions c114_call_targets.
Example c114_call_ex :
  d_view (d_found ++ [DStart 3 d_cc; DAt 3 (PServe 0 (str "s") (str "300") (d_srv 5000 5001)); DAt 3 PCollect; DAt 2 (PHear 1 1500); DAt 2 (PCall 0)]) 2 0 =
    Some ([d_fact (str "100") 11 (str "h1") 4000 4001; d_fact (str "300") 13 (str "h2") 5000 5001], true, [d_ses (str "h1") 4001; d_ses (str "h2") 5001]) /\
  d_view (d_found ++ [DStart 3 d_cc; DAt 3 (PServe 0 (str "s") (str "300") (d_srv 5000 5001)); DAt 3 PCollect; DAt 2 (PHear 1 1500); DAt 2 (PHost 0 (str "h2")); DAt 2 (PCall 0)]) 2 0 =
    Some ([d_fact (str "100") 11 (str "h1") 4000 4001; d_fact (str "300") 13 (str "h2") 5000 5001], true, [d_ses (str "h2") 5001]).
Proof. split; vm_compute; reflexivity. Qed.

(** From end to end: one cycle of the server's process, the arrival of the datagram it sent, and a
    call: the client counts the server, and its call goes there - to the right host and port
    unless another server has borne the same key. *)
Theorem c114_finds : forall ops s s1 p x c e q y c2 d,
  dsane ops -> dreach ops s -> server s p x c e -> listening c e -> client_of s q y c2 d -> takes d (facts c e) ->
  minds c2 (pc_host c) (pc_pid c) -> dsteady q ops -> dreach (ops ++ [DAt p PCollect]) s1 -> dfits s1 ->
  exists i m, length (dn_sent s) <= i /\ nth_error (dn_sent s1) i = Some m /\ tells c e m /\
    forall t s3, (forall u, In u (dtimes q ops) -> (u <= t)%Z) -> dreach (ops ++ [DAt p PCollect; DAt q (PHear i t); DAt q (PCall y)]) s3 ->
    knows s3 q (facts c e) /\
    exists d3 a z l, client_of s3 q y c2 d3 /\ counts d3 a /\ ca_key a = ca_key (facts c e) /\ calls s3 q y l /\ In (ca_key (facts c e), z) l /\
      (one_of_its_kind (ops ++ [DAt p PCollect; DAt q (PHear i t); DAt q (PCall y)]) c2 (facts c e) ->
       exists pt proto, leads z (pc_host c) pt proto /\ best (facts c e) pt proto).
Proof. exact finds_lemma. Qed.
Print Assumptions c114_finds.
Example c114_finds_ex : exists s e d, dreach d_setup s /\ server s 1 0 d_ca e /\ listening d_ca e /\ client_of s 2 0 d_cb d /\ takes d (facts d_ca e) /\
  minds d_cb (pc_host d_ca) (pc_pid d_ca) /\ dsteady 2 d_setup.
Proof.
  do 3 eexists. split; [vm_compute; reflexivity|]. split; [eexists; split; [reflexivity|]; split; reflexivity|]. split; [split; intros _; discriminate|].
  split; [eexists; split; [reflexivity|]; split; reflexivity|]. split; [split; [reflexivity|left; reflexivity]|]. split; [|exact Logic.I].
  right. split; [|reflexivity]. intros [X _]. discriminate.
Qed.

(** Different services have different keys, if their ids contain no colon and their hosts no
    at-sign. *)
Theorem c114_key_distinct : forall a b, plain a -> plain b -> ca_key a = ca_key b -> same_service a b.
Proof. exact key_lemma. Qed.
Print Assumptions c114_key_distinct.
Example c114_key_ex : plain (d_fact (str "100") 11 (str "h1") 4000 4001) /\
  ca_key (d_fact (str "100") 11 (str "h1") 4000 4001) = str "s:100@11@h1" /\
  ca_key (DAttr (str "s") (str "1") 2 (str "a@3@b") [] [] 1 1 1) = ca_key (DAttr (str "s") (str "1@2@a") 3 (str "b") [] [] 1 1 1).
Proof.
  split; [|split; vm_compute; reflexivity]. unfold plain, colon, at_sign. cbn [ca_id ca_host ca_pid d_fact]. split; [|split; [|lia]].
  - intros I1. vm_compute in I1. intuition discriminate.
  - intros I1. vm_compute in I1. intuition discriminate.
Qed.

(** Nothing else that arrives changes anything: not the withdrawal of a service, nothing from a host
    or process it does not listen to. *)
Theorem c114_ignored : forall ops s1 s p c i t m,
  dsane ops -> dreach ops s1 -> dreach (ops ++ [DAt p (PHear i t)]) s -> dfits s1 -> runs s1 p c -> nth_error (dn_sent s1) i = Some m ->
  ~ (registers m /\ minds c (sm_host m) (sm_pid m)) -> forall p', aget p' (dn_procs s) = aget p' (dn_procs s1).
Proof. exact ignored_lemma. Qed.
Print Assumptions c114_ignored.
Example c114_ignored_ex : exists s m, dreach d_gone s /\ nth_error (dn_sent s) 1 = Some m /\ ~ registers m.
Proof. do 2 eexists. split; [vm_compute; reflexivity|]. split; [reflexivity|]. discriminate. Qed.

(** Without network mode only services of hosts are known whose name is that of the own host
    group. *)
Theorem c114_deaf : forall ops s p c a,
  dsane ops -> dreach ops s -> dfits s -> runs s p c -> pc_network c = false -> knows s p a -> ca_host a = pc_group c /\ ca_host a <> [].
Proof. exact deaf_lemma. Qed.
Print Assumptions c114_deaf.
Example c114_deaf_ex : pc_network d_g2 = false /\ d_view d_group 2 0 = Some ([], false, []).
Proof. split; [reflexivity|vm_compute; reflexivity]. Qed.

(** C114 refuted for silence alone: a service that nobody hears any more stays known - and is
    called - until some other registration of a service arrives: only
    CClientGate::ApplyServiceRegistration removes what has expired
    (ecal_clientgate.cpp 127-128), and GetServiceAttr (144-158) does not look at the
    time.  If the only server of a network dies, it is known for ever. *)
Theorem c114_silent_refuted : forall ops1 s1 ops2 s p c,
  dreach ops1 s1 -> dreach (ops1 ++ ops2) s -> runs s1 p c -> (forall i t, ~ In (DAt p (PHear i t)) ops2) -> forall a, knows s p a <-> knows s1 p a.
Proof. exact kept_lemma. Qed.
Print Assumptions c114_silent_refuted.
Example c114_silent_ex : d_view (d_found ++ [DAt 1 (PEnd 0); DAt 1 PFlush; DAt 2 PCollect; DAt 2 (PCall 0); DAt 2 PCollect]) 2 0 =
  Some ([d_fact (str "100") 11 (str "h1") 4000 4001], true, [d_ses (str "h1") 4001]).
Proof. vm_compute. reflexivity. Qed.

(** C114 refuted for withdrawn services: a server that is destroyed sends its withdrawal
    (ecal_service_server_impl.cpp 356-374), but the gates ignore it
    (ecal_registration_sample_applier_gates.cpp 46-47).  In this run no server is left
    and the withdrawal has arrived; the client still knows the server, calls itself
    connected and sends its calls there. *)
Theorem c114_withdrawn_refuted : exists s d z, dreach d_gone s /\ (forall p x c e, ~ server s p x c e) /\
  (exists m, nth_error (dn_sent s) 1 = Some m /\ sm_cmd m = bct_unreg_service /\ sm_entity m = str "100" /\ In (DAt 2 (PHear 1 2000)) d_gone) /\
  knows s 2 (d_fact (str "100") 11 (str "h1") 4000 4001) /\ client_of s 2 0 d_cb d /\ cx_connected d = true /\
  calls s 2 0 [(ca_key (d_fact (str "100") 11 (str "h1") 4000 4001), z)].
Proof. exact withdrawn_lemma. Qed.
Print Assumptions c114_withdrawn_refuted.
Example c114_gone_ex : d_view d_gone 2 0 = Some ([d_fact (str "100") 11 (str "h1") 4000 4001], true, [d_ses (str "h1") 4001]).
Proof. vm_compute. reflexivity. Qed.

(** C114 refuted for slow registrations: the table of services forgets after five
    seconds (ecal_clientgate.h 67-69 uses the default of ecal_expmap.h 182), whatever
    registration.registration_refresh and registration_timeout say.  With a refresh of
    six seconds a living server, all of whose registrations have arrived, is unknown
    whenever another one was heard more than five seconds after it. *)
Theorem c114_slow_refuted : exists s e, dreach d_slow s /\ server s 3 0 d_cc e /\ listening d_cc e /\
  (forall i, i < length (dn_sent s) -> exists t, In (DAt 2 (PHear i t)) d_slow) /\ forall a, knows s 2 a -> ca_id a <> sx_id e.
Proof. exact slow_lemma. Qed.
Print Assumptions c114_slow_refuted.
Example c114_slow_ex : d_view d_slow 2 0 = Some ([d_fact (str "100") 11 (str "h1") 4000 4001], true, []).
Proof. vm_compute. reflexivity. Qed.

(** C114 refuted for IsConnected: a service that has disappeared before the client
    opened a session to it counts as connected for ever, because only failed sessions
    end a connection (ecal_service_client_impl.cpp 751-780).  In this run the client
    calls itself connected although there is no server of that name, none is known,
    the client has no session and its calls go nowhere. *)
Theorem c114_lost_refuted : exists s d, dreach d_lost s /\ client_of s 2 0 d_cb d /\ cx_connected d = true /\ calls s 2 0 [] /\ (forall k z, ~ session d k z) /\
  (forall a, knows s 2 a -> ca_name a <> cx_name d) /\ forall p x c e, server s p x c e -> sx_name e <> cx_name d.
Proof. exact lost_lemma. Qed.
Print Assumptions c114_lost_refuted.
Example c114_lost_ex : d_view (d_lost ++ [DAt 2 PCollect; DAt 2 (PCall 0)]) 2 0 =
  Some ([DAttr (str "other") (str "300") 13 (str "h2") (str "a") (str "u") 1 5000 5001], true, []).
Proof. vm_compute. reflexivity. Qed.

(** C114 refuted for clients created after the registration: creating a client
    (ecal_service_client_impl.cpp 69-95) counts no service, a call looks at the table of
    the gate (711-749); until the next registration arrives IsConnected says no although the
    service is known and calls reach it. *)
Theorem c114_late_refuted : exists s d a z, dreach d_late s /\ client_of s 2 0 d_cb d /\ knows s 2 a /\ calls s 2 0 [(ca_key a, z)] /\ cx_connected d = false.
Proof. exact late_lemma. Qed.
Print Assumptions c114_late_refuted.
Example c114_late_ex : d_view d_late 2 0 = Some ([d_fact (str "100") 11 (str "h1") 4000 4001], false, [d_ses (str "h1") 4001]).
Proof. vm_compute. reflexivity. Qed.

(** C114 refuted for host groups: two processes of one host and one host group, which
    does not bear the host's name, without network mode, do not find each other's
    services: the registration of a service carries no host group, so the sample
    applier compares its host name with the name of the group
    (ecal_registration_sample_applier.cpp 62-94).  Publishers and subscribers carry
    their host group and find each other. *)
Theorem c114_group_refuted : exists s e, dreach d_group s /\ server s 1 0 d_g1 e /\ listening d_g1 e /\ pc_host d_g2 = pc_host d_g1 /\ pc_group d_g2 = pc_group d_g1 /\
  (exists m, nth_error (dn_sent s) 0 = Some m /\ tells d_g1 e m /\ In (DAt 2 (PHear 0 1)) d_group) /\ (forall a, ~ knows s 2 a) /\ calls s 2 0 [].
Proof. exact group_lemma. Qed.
Print Assumptions c114_group_refuted.
Example c114_group_ex : d_view d_group 2 0 = Some ([], false, []).
Proof. vm_compute. reflexivity. Qed.

(** C114 refuted for loopback: with such a host group and network mode a process hears
    its own services although loopback is off: its own host counts as far away, and
    registrations from far away are not checked for the own process id
    (ecal_registration_sample_applier.cpp 103-117). *)
Theorem c114_loopback_refuted : exists s e z, dreach d_self s /\ server s 1 0 d_g3 e /\ pc_loopback d_g3 = false /\ knows s 1 (facts d_g3 e) /\
  calls s 1 0 [(ca_key (facts d_g3 e), z)].
Proof. exact self_lemma. Qed.
Print Assumptions c114_loopback_refuted.
Example c114_self_ex : d_view d_self 1 0 = Some ([d_fact (str "100") 11 (str "h1") 4000 4001], true, [d_ses (str "h1") 4001]).
Proof. vm_compute. reflexivity. Qed.

(** C114 refuted for servers that listen on one of two ports: GetRegistrationSample
    returns a sample without name, host and ports when the port of one protocol is 0
    (ecal_service_server_impl.cpp 316-321), and the provider sends it.  Other
    processes in network mode keep an entry without content; the server is not found
    although its other port is open. *)
Theorem c114_mute_refuted : exists s e, dreach d_mute s /\ server s 1 0 d_ca e /\ sv_port0 (sx_rest e) <> 0%Z /\ knows s 2 nobody /\ calls s 2 0 [].
Proof. exact mute_lemma. Qed.
Print Assumptions c114_mute_refuted.
Example c114_mute_ex : d_view d_mute 2 0 = Some ([nobody], false, []).
Proof. vm_compute. reflexivity. Qed.
