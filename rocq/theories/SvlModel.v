(** * Svl: the locks of the services, with those of publishing and subscribing

    Which locks the calls and callbacks of service clients and servers take,
    together with the locks of [LckModel]: a function is the tree of its lock
    scopes, as there.  Two things are new.
    - The calls of a client call callbacks of the user themselves (response and
      timeout), so callbacks nest.
    - A blocking call without timeout waits for an answer.  Answers are delivered
      by the four threads of the service library, and by one of them at a time
      for each connection.

    Simplifications, besides those of [LckModel].
    - The other end of a connection answers, or the connection breaks.  A server
      in the same process is no exception: its method callback is a job of one
      of the four threads.
    - A call with timeout ends by itself.
    - The mutex that a blocking call makes for itself is [LWait c], one for each
      client.
    - The mutexes of the service library are three: [LMgr] (client_manager_mutex_,
      server_manager_mutex_), [LList] (session_list_mutex_, service_state_mutex_)
      and [LSock] (socket_mutex_, acceptor_mutex_).
    - Monitoring and descriptions are left out as customers of the registration. *)

From Coq Require Import List Bool Arith Lia.
From Verif Require Import Base.
From Verif Require LckModel.
Import ListNotations.

(** [c] numbers the clients, [s] the servers of the process, [x] the connections
    of clients to servers, [y] the connections of servers to clients. *)
Inductive lk : Type :=
| P (m : LckModel.lck)
| LStr (x : nat)     (* service_call_queue_strand_, client_session_impl_v1.h 159 *)
| LSStr (y : nat)    (* service_callback_strand_, server_session_impl_base.h 99 *)
| LIo (i : nat)      (* one of the io_threads, ecal_service_singleton_manager.cpp 113, 150 *)
| LSEv (s : nat)     (* m_event_callback_map_sync, ecal_service_server_impl.cpp *)
| LRsp (c : nat)     (* m_response_callback_sync, ecal_service_client_impl.cpp *)
| LCliGate           (* m_client_set_sync, ecal_clientgate.cpp; shared or exclusive *)
| LCm (c : nat)      (* m_client_map_sync, ecal_service_client_impl.cpp *)
| LCon (c : nat)     (* m_connected_services_map_sync, ecal_service_client_impl.cpp *)
| LCEv (c : nat)     (* m_event_callback_map_sync, ecal_service_client_impl.cpp *)
| LWait (c : nat)    (* the mutex of a blocking call, ecal_service_client_impl.cpp 471 *)
| LSrvReg            (* m_service_register_map_sync, ecal_clientgate.cpp; shared or exclusive *)
| LSrvGate           (* m_service_set_sync, ecal_servicegate.cpp; shared or exclusive *)
| LCMeth (c : nat)   (* m_method_sync, ecal_service_client_impl.cpp *)
| LSMap (s : nat)    (* m_method_map_sync, ecal_service_server_impl.cpp *)
| LSConn (s : nat)   (* m_connected_mutex, ecal_service_server_impl.cpp *)
| LSing              (* singleton_mutex, ecal_service_singleton_manager.cpp *)
| LMgr | LList | LSock.

#[export] Instance lk_dec : EqDec lk.
Proof. intros a b. decide equality; try apply Nat.eq_dec. apply LckModel.lck_dec. Defined.

(** ecal_service_singleton_manager.h 72. *)
Definition num_io_threads : nat := 4.

(** The callbacks of the user. *)
Inductive cb : Type :=
| PC (c : LckModel.cbk)
| KResp (c : nat)    (* response callback, ecal_service_client_impl.cpp 263, 378, 793 *)
| KTime (c : nat)    (* client_event_timeout, 226, 283 *)
| KCConn (c : nat)   (* client_event_connected, 422 *)
| KCDisc (c : nat)   (* client_event_disconnected, 773 *)
| KMeth (s : nat)    (* method callback, ecal_service_server_impl.cpp 466 *)
| KSEv (s : nat).    (* server event, 540 *)

#[export] Instance cb_dec : EqDec cb.
Proof. intros a b. decide equality; try apply Nat.eq_dec. apply LckModel.cbk_dec. Defined.

(** ** Trees of lock scopes *)
Inductive blk : Type :=
| Skip
| Seq (a b : blk)
| With (m : lk) (exclusive : bool) (body : blk)
| Hole (c : cb)
| Inside (c : cb) (body : blk)
| Await (xs : list nat).       (* wait for the answers on the connections [xs] *)

Definition lock (m : lk) (body : blk) : blk := With m true body.
Definition share (m : lk) (body : blk) : blk := With m false body.
Definition once (m : lk) : blk := With m true Skip.
Definition once_shared (m : lk) : blk := With m false Skip.

Fixpoint seqs (l : list blk) : blk :=
  match l with
  | [] => Skip
  | b :: l' => Seq b (seqs l')
  end.

Definition when (c : bool) (b : blk) : blk := if c then b else Skip.

(** The trees of [LckModel] are trees. *)
Fixpoint emb (b : LckModel.blk) : blk :=
  match b with
  | LckModel.Skip => Skip
  | LckModel.Seq a b' => Seq (emb a) (emb b')
  | LckModel.With m e body => With (P m) e (emb body)
  | LckModel.Hole c => Hole (PC c)
  | LckModel.Inside c body => Inside (PC c) (emb body)
  end.

Definition log : blk := emb LckModel.log.
Definition register_sample : blk := emb LckModel.register_sample.
Definition unregister_sample : blk := emb LckModel.unregister_sample.

(** ** The client *)

(** CServiceClientImpl::GetRegistrationSample, ecal_service_client_impl.cpp
    637-673. *)
Definition client_sample (c : nat) : blk := once (LCMeth c).

(** CServiceClientImpl::Start with Register, ecal_service_client_impl.cpp 69-95,
    694-701. *)
Definition client_start (c : nat) : blk := Seq (client_sample c) register_sample.

(** CServiceClientImpl::Stop, ecal_service_client_impl.cpp 97-131; clearing the map
    ends the connections (client_session.cpp 51-55, 94-97; client_manager.cpp
    73-82). *)
Definition client_stop (c : nat) : blk :=
  seqs [lock (LCm c) (seqs [once LMgr; once LList; once LSock]);
        once (LRsp c); once (LCEv c); unregister_sample].

(** CServiceClientImpl::CheckForNewServices, ecal_service_client_impl.cpp 711-749,
    with CClientGate::GetServiceAttr (ecal_clientgate.cpp 144-158); one entry for
    each service of that name, [true] if a connection is made
    (ecal_service_singleton_manager.cpp 88-123, client_manager.cpp 63-87, 115-119). *)
Definition check_new (c : nat) (news : list bool) : blk :=
  Seq (once_shared LSrvReg)
      (seqs (map (fun n : bool => lock (LCm c) (when n (seqs [once LSing; once LMgr; lock LMgr log]))) news)).

(** The loop over the services of CServiceClientImpl::CallBlocking,
    ecal_service_client_impl.cpp 464, 483-563, with IncrementMethodCallCount
    (797-806) and ClientSessionV1::async_call_service (client_session_impl_v1.cpp
    371-440). *)
Definition send_calls (c : nat) (xs : list nat) : blk :=
  Seq (once_shared LSrvReg)
      (seqs (map (fun _ => lock (LCm c) (lock (LWait c) (Seq (once LList) (once (LCMeth c))))) xs)).

(** CServiceClientImpl::CallBlocking, ecal_service_client_impl.cpp 441-595. *)
Definition call_blocking (c : nat) (news : list bool) (xs : list nat) (timeout : bool) : blk :=
  seqs [check_new c news; send_calls c xs; when (negb timeout) (Await xs); once (LWait c)].

(** The timeout events, ecal_service_client_impl.cpp 213-230, 270-287; [late]
    services have not answered in time and a callback is set. *)
Definition timeout_events (c : nat) (timeout : bool) (late : nat) : blk :=
  when timeout (lock (LCEv c) (seqs (repeat (Hole (KTime c)) late))).

(** CServiceClientImpl::RegisterService, ecal_service_client_impl.cpp 405-427. *)
Definition client_register_service (c : nat) (new cb : bool) : blk :=
  lock (LCon c) (when new (lock (LCEv c) (when cb (Hole (KCConn c))))).

(** CServiceClientImpl::CheckForDisconnectedServices, ecal_service_client_impl.cpp
    751-780; one entry for each connection, [true] if it has failed and the event
    is called. *)
Definition client_check (c : nat) (fires : list bool) : blk :=
  lock (LCm c) (seqs (map (fun f : bool => Seq (once LList) (when f (lock (LCEv c) (Hole (KCDisc c))))) fires)).

(** CServiceClientImpl::GetRegistration, ecal_service_client_impl.cpp 430-439. *)
Definition client_registration (c : nat) (news fires : list bool) : blk :=
  seqs [check_new c news; client_check c fires; client_sample c].

(** ** The server *)

(** CServiceServerImpl::Start, ecal_service_server_impl.cpp 63-132, with
    ecal_service_singleton_manager.cpp 125-160, ServerManager::create_server
    (server_manager.cpp 60-85) and ServerImpl::start_accept (server_impl.cpp
    133-203), for two protocols. *)
Definition server_start : blk :=
  seqs [once LSing; once LMgr; lock LMgr (Seq (once LSock) log); lock LMgr (Seq (once LSock) log)].

(** CServiceServerImpl::Stop, ecal_service_server_impl.cpp 134-173, with
    ServerImpl::stop (server_impl.cpp 296-320). *)
Definition server_stop (s : nat) : blk :=
  seqs [once (LSMap s); once (LSEv s);
        once LSock; lock LList (once LSock); once LSock; lock LList (once LSock);
        unregister_sample; log; once (LSConn s)].

(** CServiceServerImpl::GetRegistrationSample, ecal_service_server_impl.cpp
    310-354. *)
Definition server_sample (s : nat) : blk := seqs [once LSock; once LSock; once (LSMap s)].

(** ** The calls of the user *)
Inductive call : Type :=
| PS (k : LckModel.call)
| CreateCli (c : nat)
| DestroyCli (c : nat)
| SetResp (c : nat)                (* AddResponseCallback, RemResponseCallback *)
| SetCliEvent (c : nat)            (* AddEventCallback, RemEventCallback *)
| IsConnCli (c : nat)
| CallCb (c : nat) (news : list bool) (xs : list nat) (timeout : bool) (answers late : nat)
| CallVec (c : nat) (news : list bool) (xs : list nat) (timeout : bool) (late : nat)
| CallAsync (c : nat) (news : list bool) (xs : list nat)
| CallAsyncError (c : nat) (cb : bool)
| CreateSrv (s : nat)
| DestroySrv (s : nat)
| SetMethod (s : nat)              (* AddDescription, AddMethodCallback, RemMethodCallback *)
| SetSrvEvent (s : nat)            (* AddEventCallback, RemEventCallback *)
| IsConnSrv (s : nat)
| FinalizeAll (cs ss rs ws : list nat).

Definition call_blk (k : call) : blk :=
  match k with
  | PS k => emb (LckModel.call_blk k)
  (* CServiceClient::Create, ecal_service_client.cpp 95-108; CClientGate::Register,
     ecal_clientgate.cpp 66-75 *)
  | CreateCli c => Seq (client_start c) (once LCliGate)
  (* CServiceClient::Destroy, ecal_service_client.cpp 115-128;
     CClientGate::Unregister, ecal_clientgate.cpp 77-98 *)
  | DestroyCli c => Seq (once LCliGate) (client_stop c)
  (* ecal_service_client_impl.cpp 141-154 *)
  | SetResp c => once (LRsp c)
  (* ecal_service_client_impl.cpp 157-190 *)
  | SetCliEvent c => lock (LCEv c) log
  (* ecal_service_client_impl.cpp 395-402 *)
  | IsConnCli c => once (LCon c)
  (* CServiceClientImpl::Call with callback, ecal_service_client_impl.cpp 243-297;
     [answers] responses have come and a callback is set *)
  | CallCb c news xs timeout answers late =>
      seqs [call_blocking c news xs timeout;
            lock (LRsp c) (seqs (repeat (Hole (KResp c)) answers));
            timeout_events c timeout late]
  (* CServiceClientImpl::Call with vector, ecal_service_client_impl.cpp 193-240 *)
  | CallVec c news xs timeout late =>
      Seq (call_blocking c news xs timeout) (timeout_events c timeout late)
  (* CServiceClientImpl::CallAsync, ecal_service_client_impl.cpp 300-392 *)
  | CallAsync c news xs =>
      seqs [check_new c news; once_shared LSrvReg;
            seqs (map (fun _ => lock (LCm c) (Seq (once LList) (once (LCMeth c)))) xs)]
  (* the same with ErrorCallback, ecal_service_client_impl.cpp 304-321, 782-795 *)
  | CallAsyncError c cb => lock (LRsp c) (when cb (Hole (KResp c)))
  (* CServiceServer::Create, ecal_service_server.cpp 73-86; CServiceGate::Register,
     ecal_servicegate.cpp 63-72 *)
  | CreateSrv _ => Seq server_start (once LSrvGate)
  (* CServiceServer::Destroy, ecal_service_server.cpp 93-106;
     CServiceGate::Unregister, ecal_servicegate.cpp 74-95; the servers' deleters,
     server_manager.cpp 72-81 *)
  | DestroySrv s => seqs [once LSrvGate; server_stop s; once LMgr]
  (* ecal_service_server_impl.cpp 175-250 *)
  | SetMethod s => once (LSMap s)
  (* ecal_service_server_impl.cpp 253-286 *)
  | SetSrvEvent s => lock (LSEv s) log
  (* ecal_service_server_impl.cpp 289-295; server_impl.cpp 93-114 *)
  | IsConnSrv _ => once LList
  (* CGlobals::Finalize, ecal_globals.cpp 275-319: monitoring; ServiceManager::stop
     (ecal_service_singleton_manager.cpp 162-181), which waits for the four threads
     while it holds its mutex; CClientGate::Stop (ecal_clientgate.cpp 52-64);
     CServiceGate::Stop (ecal_servicegate.cpp 49-61); the rest as in [LckModel] *)
  | FinalizeAll cs ss rs ws =>
      seqs [once (P LckModel.LAppl);
            lock LSing (seqs [once LMgr; once LSock; lock LList (once LSock); once LMgr; once LList; once LSock;
                              seqs (map (fun i => once (LIo i)) (seq 0 num_io_threads))]);
            share LCliGate (seqs (map client_stop cs));
            share LSrvGate (seqs (map server_stop ss));
            emb (LckModel.call_blk (LckModel.Finalize rs ws))]
  end.

(** ** What the threads of the library do *)

Record cmatch := { cm_c : nat; cm_new : bool; cm_cb : bool }.
Record creg := { cr_c : nat; cr_news : list bool; cr_fires : list bool }.

Inductive job : Type :=
| PSJob (j : LckModel.job)                         (* samples, registrations of publishers and subscribers *)
| ServiceRegistered (l : list cmatch) (user : bool)
| SendCycle (rs ws : list (nat * bool)) (ss : list nat) (cs : list creg)
| Answered (i x c : nat) (cb : bool)               (* an asynchronous call has been answered *)
| Woken (i x c : nat)                              (* a blocking call has been answered *)
| Requested (i y s : nat) (found : bool)
| Accepted (i : nat)                               (* a client connects to a server *)
| SrvEvent (i s : nat) (cb : bool).

(** A job of one of the four threads. *)
Definition on_io (i : nat) (b : blk) : blk := lock (LIo (i mod num_io_threads)) b.

Definition job_blk (j : job) : blk :=
  match j with
  | PSJob j => emb (LckModel.job_blk j)
  (* CSampleApplier::ApplySample, ecal_registration_sample_applier.cpp 43-60;
     CClientGate::ApplyServiceRegistration, ecal_clientgate.cpp 100-142 *)
  | ServiceRegistered l user =>
      lock (P LckModel.LRecv) (lock (P LckModel.LAppl)
        (Seq (when user (Hole (PC LckModel.KReg)))
             (Seq (once LSrvReg)
                  (share LCliGate
                     (seqs (map (fun m => client_register_service (cm_c m) (cm_new m) (cm_cb m)) l))))))
  (* CRegistrationProvider::RegisterSendThread, ecal_registration_provider.cpp
     141-179; CServiceGate::GetRegistrations, ecal_servicegate.cpp 97-107;
     CClientGate::GetRegistrations, ecal_clientgate.cpp 160-170 *)
  | SendCycle rs ws ss cs =>
      lock (P LckModel.LSend)
        (seqs [once (P LckModel.LTrig);
               share (P LckModel.LSubGate)
                 (seqs (map (fun x => emb (LckModel.reader_registration (fst x) (snd x))) rs));
               share (P LckModel.LPubGate)
                 (seqs (map (fun x => emb (LckModel.writer_registration (fst x) (snd x))) ws));
               share LSrvGate (seqs (map server_sample ss));
               share LCliGate
                 (seqs (map (fun x => client_registration (cr_c x) (cr_news x) (cr_fires x)) cs));
               once (P LckModel.LProv)])
  (* ClientSessionV1::receive_service_response, client_session_impl_v1.cpp 472-542,
     with the callback of CallAsync (ecal_service_client_impl.cpp 348-380) *)
  | Answered i x c cb =>
      lock (LStr x) (on_io i (seqs [lock (LRsp c) (when cb (Hole (KResp c))); lock LList (once LSock)]))
  (* the same with the callback of CallBlocking (ecal_service_client_impl.cpp
     512-537) *)
  | Woken i x c => lock (LStr x) (on_io i (seqs [once (LWait c); lock LList (once LSock)]))
  (* ServerSessionV1::receive_service_request, server_session_impl_v1.cpp 259-309,
     with CServiceServerImpl::RequestCallback (ecal_service_server_impl.cpp
     400-480) *)
  | Requested i y s found =>
      lock (LSStr y) (on_io i (seqs [log; once (LSMap s); when found (Hole (KMeth s)); once LSock]))
  (* server_impl.cpp 255-292 *)
  | Accepted i => on_io i (Seq (lock LList (once LSock)) (once LSock))
  (* CServiceServerImpl::EventCallback, ecal_service_server_impl.cpp 482-543, and the
     end of the session (server_impl.cpp 209-228) *)
  | SrvEvent i s cb =>
      on_io i (seqs [log; lock (LSConn s) (seqs [once LList; log; once LList; log]);
                     when cb (lock (LSEv s) (Hole (KSEv s))); once LList])
  end.

(** ** Filling the callbacks in

    A call with what the callbacks that it calls do, one list of calls for each
    time; when the list is used up they do nothing. *)
Inductive act : Type :=
| Act (k : call) (beh : list (list act)).

Fixpoint fill (b : blk) (beh : list blk) : blk * list blk :=
  match b with
  | Skip => (Skip, beh)
  | Seq a b' =>
      let (a1, beh1) := fill a beh in
      let (b1, beh2) := fill b' beh1 in (Seq a1 b1, beh2)
  | With m e body => let (b1, beh1) := fill body beh in (With m e b1, beh1)
  | Hole c =>
      match beh with
      | [] => (Inside c Skip, [])
      | d :: beh' => (Inside c d, beh')
      end
  | Inside c body => (Inside c body, beh)
  | Await xs => (Await xs, beh)
  end.

Fixpoint act_blk (a : act) : blk :=
  match a with
  | Act k beh => fst (fill (call_blk k) (map (fun l => seqs (map act_blk l)) beh))
  end.

(** A piece of work of a thread. *)
Inductive work : Type :=
| Api (a : act)
| Job (j : job) (beh : list (list act)).

Definition work_blk (w : work) : blk :=
  match w with
  | Api a => act_blk a
  | Job j beh => fst (fill (job_blk j) (map (fun l => seqs (map act_blk l)) beh))
  end.

(** ** Threads *)
Inductive ins : Type :=
| Take (m : lk)
| Share (m : lk)
| Drop (m : lk)
| Enter (c : cb)
| Leave (c : cb)
| Wait (xs : list nat).

Fixpoint flat (b : blk) : list ins :=
  match b with
  | Skip => []
  | Seq a b' => flat a ++ flat b'
  | With m e body => (if e then Take m else Share m) :: flat body ++ [Drop m]
  | Hole _ => []
  | Inside c body => Enter c :: flat body ++ [Leave c]
  | Await xs => [Wait xs]
  end.

Definition program (l : list work) : list ins := flat (seqs (map work_blk l)).

Inductive mark : Type :=
| Held (m : lk) (exclusive : bool)
| In_ (c : cb).

Record thr := { todo : list ins; has : list mark }.

Definition holds (m : lk) (t : thr) : bool :=
  existsb (fun k => match k with Held m' _ => eqb m' m | In_ _ => false end) (has t).

Definition holds_ex (m : lk) (t : thr) : bool :=
  existsb (fun k => match k with Held m' e => eqb m' m && e | In_ _ => false end) (has t).

Definition awaits_ex (m : lk) (t : thr) : bool :=
  match todo t with Take m' :: _ => eqb m' m | _ => false end.

Definition sys := list thr.

(** What the model leaves open: whether a thread that waits for exclusive access
    keeps others from sharing ([wf], writers first), and whether an answer comes as
    soon as one of the four threads is free or only when all four are ([all], as it
    may be if the server is in the same process). *)
Record policy := { wf : bool; all : bool }.

Definition io_free (pl : policy) (s : sys) : bool :=
  let f := fun i => negb (existsb (holds (LIo i)) s) in
  if all pl then forallb f (seq 0 num_io_threads) else existsb f (seq 0 num_io_threads).

Definition can (pl : policy) (s : sys) (i : ins) : bool :=
  match i with
  | Take m => negb (existsb (holds m) s)
  | Share m => negb (existsb (holds_ex m) s) && negb (wf pl && existsb (awaits_ex m) s)
  | Wait [] => true
  | Wait xs => io_free pl s && forallb (fun x => negb (existsb (holds (LStr x)) s)) xs
  | _ => true
  end.

Fixpoint pop_lock (m : lk) (l : list mark) : list mark :=
  match l with
  | [] => []
  | Held m' e :: l' => if eqb m' m then l' else Held m' e :: pop_lock m l'
  | k :: l' => k :: pop_lock m l'
  end.

Fixpoint pop_in (c : cb) (l : list mark) : list mark :=
  match l with
  | [] => []
  | In_ c' :: l' => if eqb c' c then l' else In_ c' :: pop_in c l'
  | k :: l' => k :: pop_in c l'
  end.

Definition exec (i : ins) (l : list mark) : list mark :=
  match i with
  | Take m => Held m true :: l
  | Share m => Held m false :: l
  | Drop m => pop_lock m l
  | Enter c => In_ c :: l
  | Leave c => pop_in c l
  | Wait _ => l
  end.

Fixpoint put (n : nat) (t : thr) (s : sys) {struct s} : sys :=
  match s, n with
  | [], _ => []
  | _ :: s', 0 => t :: s'
  | t' :: s', S n' => t' :: put n' t s'
  end.

(** Thread [n] executes its next instruction, if it has one and can. *)
Definition step (pl : policy) (n : nat) (s : sys) : option sys :=
  match nth_error s n with
  | Some t =>
      match todo t with
      | i :: rest => if can pl s i then Some (put n {| todo := rest; has := exec i (has t) |} s) else None
      | [] => None
      end
  | None => None
  end.

Inductive evt : Type :=
| Run (n : nat)
| Spawn (l : list work).

Definition do_evt (pl : policy) (s : sys) (e : evt) : sys :=
  match e with
  | Run n => match step pl n s with Some s' => s' | None => s end
  | Spawn l => s ++ [{| todo := program l; has := [] |}]
  end.

Definition run (pl : policy) (es : list evt) : sys := fold_left (do_evt pl) es [].
