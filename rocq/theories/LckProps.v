(** * Lck: properties *)

From Coq Require Import List Bool Arith Lia.
From Verif Require Import Base LckModel LckSpec LckProofs.
Import ListNotations.

(** C112: however many threads call the library and whatever its own threads do,
    as long as the callbacks keep to one of the three sets of rules there is
    always a thread that can go on, until all are done. *)
Theorem c112_progress : forall p wf es, Forall (event_keeps p) es ->
  Forall done (run wf es) \/ exists n s', step wf n (run wf es) = Some s'.
Proof. exact progress_lemma. Qed.
Print Assumptions c112_progress.

(** C112: from every state that can be reached all threads can be brought to
    their end, with no lock left behind. *)
Theorem c112_finishes : forall p wf es, Forall (event_keeps p) es ->
  exists ns s', steps wf ns (run wf es) s' /\ Forall done s'.
Proof. exact finishes_lemma. Qed.
Print Assumptions c112_finishes.

(** C112: and no scheduling can prevent it: in whatever order the threads go on,
    they make no more steps than they have instructions, and when none can go on
    all are done. *)
Theorem c112_any_order : forall p wf es ns s, Forall (event_keeps p) es -> steps wf ns (run wf es) s ->
  length ns <= remaining (run wf es) /\ (blocked wf s -> Forall done s).
Proof. exact any_order_lemma. Qed.
Print Assumptions c112_any_order.

(** Four threads with 278 instructions that compete for the locks, keeping to the
    rules; in the end all are done. *)
Example c112_busy_ex :
  Forall (event_keeps SubsUsePubs) busy /\ remaining (run true busy) = 278 /\
  Forall done (run true (busy ++ map Run (concat (repeat [0; 1; 2; 3] 200)))).
Proof.
  split; [exact busy_keeps|split; [vm_compute; reflexivity|]].
  apply doneb_done. vm_compute. reflexivity.
Qed.

(** C112: two callbacks that are called under the same lock never run at the same
    time, whatever the callbacks do: the receive callback of a subscriber runs in
    one thread at a time, so do the events of a subscriber (connected, update,
    disconnected, dropped), of a publisher, and the registration callbacks. *)
Theorem c112_serial : forall wf es i j a b c c',
  nth_error (run wf es) i = Some a -> nth_error (run wf es) j = Some b -> i <> j ->
  inside c a -> inside c' b -> guard c <> guard c'.
Proof. exact serial_lemma. Qed.
Print Assumptions c112_serial.

(** C112: while a thread changes or removes a callback, or stops the subscriber or
    publisher, no other thread is inside that callback; so when the call returns
    the old callback is not running any more. *)
Theorem c112_between : forall wf es i j a b m c,
  nth_error (run wf es) i = Some a -> nth_error (run wf es) j = Some b -> i <> j ->
  In (Held m true) (has a) -> guard c = m -> ~ inside c b.
Proof. exact between_lemma. Qed.
Print Assumptions c112_between.

(** C112: the calls that set, remove or end a callback do take its lock. *)
Theorem c112_changes : forall k c, In c (changes k) -> In (Take (guard c)) (program [Api k]).
Proof. exact changes_lemma. Qed.
Print Assumptions c112_changes.

(** One thread is inside the receive callback of reader 2; the other, which wants
    to remove that callback, waits. *)
Example c112_between_ex :
  let s := run true ([Spawn [sample_for 2 [WriteLog]]; Spawn [Api (RemReceive 2)]] ++ map Run (repeat 0 8 ++ [1])) in
  (exists a b, s = [a; b] /\ In (In_ (KRecv 2)) (has a) /\ todo b = Take (LRcv 2) :: tl (todo b)).
Proof. vm_compute. do 2 eexists. split; [reflexivity|]. split; [left; reflexivity|reflexivity]. Qed.

(** C112 refuted without rules: a subscriber created in an event of a subscriber,
    or a publisher created in an event of a publisher, stops the registration
    thread for ever.  The gate's lock is held (shared) while the events are
    called, CSubGate::ApplyPubRegistration (ecal_subgate.cpp 254-273) and
    CPubGate::ApplySubRegistration, and creating needs it exclusively. *)
Theorem c112_create_in_event_refuted : forall wf,
  hangs wf [[connects 1 [CreateSub 2]]] /\ hangs wf [[pub_connects 1 [CreatePub 2]]].
Proof. exact create_in_event_hangs. Qed.
Print Assumptions c112_create_in_event_refuted.

(** C112 refuted without rules: asking IsPublished or GetPublisherCount in the
    disconnected event of the same subscriber stops the thread that sends the
    registrations; so does sending (or IsSubscribed, GetSubscriberCount) in the
    disconnected event of the same publisher.  CDataReader::CheckConnections
    (ecal_reader.cpp 549-554) and CDataWriter::CheckConnections (ecal_writer.cpp
    596-601) call the event while they hold the lock of the map that these calls
    lock again. *)
Theorem c112_ask_in_disconnected_refuted : forall wf,
  hangs wf [[disconnects 1 [IsPublished 1]]] /\ hangs wf [[pub_disconnects 1 [Send 1 false false]]].
Proof. exact ask_in_disconnected_hangs. Qed.
Print Assumptions c112_ask_in_disconnected_refuted.

(** C112 refuted without rules: the same calls in the connected event can stop both
    registration threads.  The connected event runs with the lock of the event
    map and the call waits for the connection map; the send thread holds the
    connection map and waits for the event map to tell a disconnect.  The flag
    m_connected is set before the connection is in the map (ecal_writer.cpp
    737-739 and 485), so the send thread does find an empty map and a connected
    publisher while the event runs. *)
Theorem c112_ask_in_connected_refuted : forall wf,
  hangs wf [[connects 1 [IsPublished 1]]; [disconnects 1 []]] /\
  hangs wf [[pub_connects 1 [Send 1 true false]]; [pub_disconnects 1 []]].
Proof. exact ask_in_connected_hangs. Qed.
Print Assumptions c112_ask_in_connected_refuted.

(** C112 refuted without rules: a receive callback that removes or replaces itself,
    or destroys its subscriber, waits for itself (ecal_reader.cpp 371 and 193, 210,
    127); so does a dropped event that removes the receive callback, and any event
    that changes the events of its own subscriber (750, 784 and 231, 248). *)
Theorem c112_own_callback_refuted : forall wf,
  hangs wf [[sample_for 1 [RemReceive 1]]] /\ hangs wf [[sample_for 1 [DestroySub 1]]] /\
  hangs wf [[sample_lost 1 [RemReceive 1]]] /\ hangs wf [[connects 1 [RemSubEvent 1]]].
Proof. exact own_callback_hangs. Qed.
Print Assumptions c112_own_callback_refuted.

(** C112 refuted without rules: two subscribers whose receive callbacks destroy (or
    change the callback of) each other can wait for each other for ever. *)
Theorem c112_cross_destroy_refuted : forall wf,
  hangs wf [[sample_for 1 [DestroySub 2]]; [sample_for 2 [DestroySub 1]]].
Proof. exact cross_destroy_hangs. Qed.
Print Assumptions c112_cross_destroy_refuted.

(** C112 refuted when the events of subscribers use publishers and the events of
    publishers use subscribers: one registration thread holds the lock of the
    subscribers and waits for that of the publishers, the other one the other way
    round.  Each half alone is allowed by one of the sets of rules. *)
Theorem c112_both_ways_refuted : forall wf,
  hangs wf [[connects 1 [CreatePub 3]]; [pub_disconnects 2 [CreateSub 4]]] /\
  keeps SubsUsePubs (connects 1 [CreatePub 3]) /\ keeps PubsUseSubs (pub_disconnects 2 [CreateSub 4]).
Proof. exact both_ways_hangs. Qed.
Print Assumptions c112_both_ways_refuted.

(** C112 refuted when the library is finalized: eCAL::Finalize waits, under the
    exclusive lock of the gate, for the receive callback of each subscriber
    (CSubGate::Stop, ecal_subgate.cpp 63-67; ecal_reader.cpp 127); a receive
    callback that creates a subscriber at that moment waits for the gate.  Without
    Finalize that callback is allowed.  Finalizing inside a receive callback waits
    for itself. *)
Theorem c112_finalize_refuted : forall wf,
  hangs wf [[sample_for 1 [CreateSub 2]]; [Api (Finalize [1] [])]] /\
  keeps SubsUsePubs (sample_for 1 [CreateSub 2]) /\
  hangs wf [[sample_for 1 [Finalize [1] []]]].
Proof. exact finalize_hangs. Qed.
Print Assumptions c112_finalize_refuted.

(** C112 refuted without rules: all customers of the registration are called under
    one lock, so starting or stopping monitoring inside a registration callback
    waits for itself, and doing it inside a receive callback can wait for a
    registration callback that destroys that subscriber
    (ecal_registration_sample_applier.cpp 53, 121, 127). *)
Theorem c112_customer_refuted : forall wf,
  hangs wf [[Job (OtherRegistered true) [[SetCustomer]]]] /\
  hangs wf [[sample_for 1 [SetCustomer]]; [Job (OtherRegistered true) [[DestroySub 1]]]] /\
  forall p, keeps p (Job (OtherRegistered true) [[DestroySub 1]]).
Proof. exact customer_hangs. Qed.
Print Assumptions c112_customer_refuted.
