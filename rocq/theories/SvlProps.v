(** * Svl: properties *)

From Coq Require Import List Bool Arith Lia.
From Verif Require Import Base.
From Verif Require LckModel LckSpec.
From Verif Require Import SvlModel SvlSpec SvlProofs.
Import ListNotations.

(** C113: however many threads publish, subscribe, serve and call services, and
    whatever the threads of the library do, as long as the callbacks keep to one of
    the four sets of rules there is always a thread that can go on, until all are
    done. *)
Theorem c113_progress : forall q pl es, Forall (event_keeps q) es ->
  Forall done (run pl es) \/ exists n s', step pl n (run pl es) = Some s'.
Proof. exact progress_lemma. Qed.
Print Assumptions c113_progress.

(** C113: from every state that can be reached all threads can be brought to their
    end, with no lock left behind; in particular every blocking call returns. *)
Theorem c113_finishes : forall q pl es, Forall (event_keeps q) es ->
  exists ns s', steps pl ns (run pl es) s' /\ Forall done s'.
Proof. exact finishes_lemma. Qed.
Print Assumptions c113_finishes.

(** C113: and no scheduling can prevent it. *)
Theorem c113_any_order : forall q pl es ns s, Forall (event_keeps q) es -> steps pl ns (run pl es) s ->
  length ns <= remaining (run pl es) /\ (blocked pl s -> Forall done s).
Proof. exact any_order_lemma. Qed.
Print Assumptions c113_any_order.

(** Six threads with 398 instructions, with callbacks inside callbacks and blocking calls without timeout
    in a response and in a receive callback. *)
Example c113_busy_ex :
  Forall (event_keeps rules1) busy /\ remaining (run {| wf := true; all := true |} busy) = 398 /\
  Forall done (run {| wf := true; all := true |} (busy ++ map Run (concat (repeat [0; 1; 2; 3; 4; 5] 400)))).
Proof. split; [exact busy_keeps|split; [vm_compute; reflexivity|]]. apply doneb_done. vm_compute. reflexivity. Qed.

(** C113: two callbacks that are called under the same lock never run at the same
    time, whatever they do: the response callback of a client runs in one thread at
    a time, so do the events of a client (connected, disconnected, timeout) and the
    events of a server. *)
Theorem c113_serial : forall pl es i j a b c c' g,
  nth_error (run pl es) i = Some a -> nth_error (run pl es) j = Some b -> i <> j ->
  inside c a -> inside c' b -> guard c = Some g -> guard c' <> Some g.
Proof. exact serial_lemma. Qed.
Print Assumptions c113_serial.

(** C113: while a thread changes or removes a callback other than a method callback,
    no other thread is inside it. *)
Theorem c113_between : forall pl es i j a b m c,
  nth_error (run pl es) i = Some a -> nth_error (run pl es) j = Some b -> i <> j ->
  In (Held m true) (has a) -> guard c = Some m -> ~ inside c b.
Proof. exact between_lemma. Qed.
Print Assumptions c113_between.

(** C113: and the calls that set, remove or end such a callback do take its lock. *)
Theorem c113_changes : forall k beh c, In c (changes k) ->
  exists m, guard c = Some m /\ In (Take m) (program [Api (Act k beh)]).
Proof. exact changes_lemma. Qed.
Print Assumptions c113_changes.

(** One thread is inside the response callback of client 1; the other, which wants to
    remove it, waits. *)
Example c113_between_ex :
  let s := run {| wf := true; all := true |} ([Spawn [answer 0 5 1 []]; Spawn [Api (plainly (SetResp 1))]] ++ map Run (repeat 0 4 ++ [1])) in
  exists a b, s = [a; b] /\ In (In_ (KResp 1)) (has a) /\ todo b = Take (LRsp 1) :: tl (todo b).
Proof. vm_compute. do 2 eexists. split; [reflexivity|]. split; [left; reflexivity|reflexivity]. Qed.

(** C113: at most four method callbacks run at the same time, for all servers of the
    process together, however many clients call them. *)
Theorem c113_four_methods : forall pl es ns, NoDup ns ->
  (forall n, In n ns -> exists t v, nth_error (run pl es) n = Some t /\ inside (KMeth v) t) ->
  length ns <= num_io_threads.
Proof. exact methods_lemma. Qed.
Print Assumptions c113_four_methods.

(** Four do: four threads are inside the method callbacks of one server. *)
Example c113_four_methods_ex :
  let s := run {| wf := true; all := true |} (map Spawn four ++ map Run (concat (repeat [0; 1; 2; 3] 12))) in
  length s = 4 /\ forallb (fun t => existsb (fun k => match k with In_ (KMeth 1) => true | _ => false end) (has t)) s = true.
Proof. vm_compute. split; reflexivity. Qed.

(** C113 refuted for method callbacks: two threads can be inside the method
    callbacks of one server at the same time, and one can be inside while another
    thread has removed it and gone on.  CServiceServerImpl::RequestCallback
    (ecal_service_server_impl.cpp 431-466) copies the entry of the method under the
    lock and calls the callback without it, and four threads serve
    (ecal_service_singleton_manager.h 72). *)
Theorem c113_methods_refuted : forall pl,
  exists es i j a b, nth_error (run pl es) i = Some a /\ nth_error (run pl es) j = Some b /\ i <> j /\
    inside (KMeth 1) a /\ inside (KMeth 1) b /\
    exists es' k d,
      nth_error (run pl (es ++ Spawn [Api (plainly (SetMethod 1))] :: es')) i = Some a /\
      nth_error (run pl (es ++ Spawn [Api (plainly (SetMethod 1))] :: es')) k = Some d /\ done d.
Proof. exact methods_parallel. Qed.
Print Assumptions c113_methods_refuted.

(** C113 refuted without rules: an event of a client that asks the client IsConnected,
    changes its events or calls a service with a timeout that passes stops the
    registration thread for ever (m_connected_services_map_sync and
    m_event_callback_map_sync are held, ecal_service_client_impl.cpp 408-414, 400,
    162, 215); a disconnected event that calls a service stops the send thread
    (m_client_map_sync is held, 753, 719). *)
Theorem c113_client_event_refuted : forall pl,
  hangs pl [[found 1 [IsConnCli 1]]] /\ hangs pl [[found 1 [SetCliEvent 1]]] /\
  hangs pl [[found 1 [CallVec 1 [] [5] true 1]]] /\ hangs pl [[broken 1 [CallAsync 1 [] [5]]]].
Proof. exact client_event_hangs. Qed.
Print Assumptions c113_client_event_refuted.

(** C113 refuted without rules: a connected event that calls a service can stop both
    registration threads: it holds the lock of the events and waits for the map of
    connections; the send thread holds the map and waits to tell a disconnect
    (ecal_service_client_impl.cpp 414, 719 and 753, 768). *)
Theorem c113_client_event_order_refuted : forall pl,
  hangs pl [[found 1 [CallAsync 1 [] [5]]]; [broken 1 []]].
Proof. exact client_event_order_hangs. Qed.
Print Assumptions c113_client_event_order_refuted.

(** C113 refuted without rules: an event of a client that creates or destroys any
    client stops its thread for ever; the gate's lock is held (shared) while the
    events are called, ecal_clientgate.cpp 133, 165, and creating and destroying
    need it exclusively, 71, 82. *)
Theorem c113_create_in_client_event_refuted : forall pl,
  hangs pl [[found 1 [CreateCli 2]]] /\ hangs pl [[broken 1 [DestroyCli 2]]].
Proof. exact create_in_client_event_hangs. Qed.
Print Assumptions c113_create_in_client_event_refuted.

(** C113 refuted without rules: a response callback that replaces or removes itself,
    destroys its client, or makes a call with callback on the same client waits for
    itself (ecal_service_client_impl.cpp 252, 368 and 144, 151, 109). *)
Theorem c113_response_refuted : forall pl,
  hangs pl [[answer 0 5 1 [SetResp 1]]] /\ hangs pl [[answer 0 5 1 [DestroyCli 1]]] /\
  hangs pl [[answer 0 5 1 [CallCb 1 [] [6] true 1 0]]] /\ hangs pl [[ask 1 5 [CallCb 1 [] [5] true 0 0]]].
Proof. exact response_hangs. Qed.
Print Assumptions c113_response_refuted.

(** C113 refuted without rules: a blocking call without timeout in the response
    callback of an asynchronous call, to the same service, never returns.  The new
    call is queued behind the one whose callback runs
    (client_session_impl_v1.cpp 382-440, 488-539). *)
Theorem c113_same_connection_refuted : forall pl, hangs pl [[answer 0 5 1 [CallVec 1 [] [5] false 0]]].
Proof. exact same_connection_hangs. Qed.
Print Assumptions c113_same_connection_refuted.

(** C113 refuted without rules: four method callbacks that each make a blocking call
    without timeout, to other processes that answer at once, never return: the
    answers would be read by the four threads in which the callbacks run
    (ecal_service_singleton_manager.h 72, ecal_service_singleton_manager.cpp
    113-117).  All servers and clients of the process stand still. *)
Theorem c113_four_refuted : forall pl, hangs pl four.
Proof. exact four_hang. Qed.
Print Assumptions c113_four_refuted.

(** C113 refuted when events of clients use subscribers and callbacks of subscribers
    use clients: an event of a subscriber creates a client while an event of a client
    creates a subscriber, or a receive callback asks a client IsConnected while an
    event of that client destroys the subscriber. *)
Theorem c113_both_ways_refuted : forall pl,
  hangs pl [[sub_lost 3 [CreateCli 2]]; [found 1 [PS (LckModel.CreateSub 4)]]] /\
  hangs pl [[found 1 [PS (LckModel.DestroySub 3)]]; [Job (PSJob (LckModel.Sample [(3, (false, true))])) [[plainly (IsConnCli 1)]]]].
Proof. exact both_ways_hang. Qed.
Print Assumptions c113_both_ways_refuted.

(** C113 refuted for Finalize: ServiceManager::stop joins the four threads while it
    holds singleton_mutex (ecal_service_singleton_manager.cpp 164-175), so a method
    callback that is about to make a new connection, past the check of [stopped]
    (93-97), waits for the mutex and Finalize for the callback; and CClientGate::Stop
    holds the gate (ecal_clientgate.cpp 57) while it waits for a response callback
    that may be creating a client. *)
Theorem c113_finalize_refuted : forall pl,
  hangs pl [[request 0 1 [CallVec 1 [true] [5] true 0]]; [Api (plainly (FinalizeAll [] [] [] []))]] /\
  hangs pl [[Api (plainly (FinalizeAll [1] [] [] []))]; [ask 1 5 [CreateCli 2]]].
Proof. exact finalize_hangs. Qed.
Print Assumptions c113_finalize_refuted.
