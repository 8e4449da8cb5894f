(** * Lck: the locks of the publish / subscribe core

    Which locks the calls of the user and the threads of the library take, in
    which order, and which of them are held while a callback of the user runs.

    Everything else the functions do is left out: a function is the tree of its
    lock scopes.  All locks of the code below are held by [std::lock_guard],
    [std::unique_lock] or [std::shared_lock] objects on the stack, so the scopes
    nest.

    Simplifications.
    - A path that returns early takes fewer locks; the trees are those of the
      longest path, and the choices that decide which scopes are entered are
      arguments of the jobs.
    - The logging calls of a debug build are included.
    - Waiting for a thread to end is taking a lock which that thread holds while
      it works ([LSend], [LRecv]).
    - Timed waits end by themselves and are no locks: the 20 ms wait for an
      event, the access to a memory file, the wait for acknowledgements.
    - The libraries underneath (sockets, [tcp_pubsub], time plugins) take no lock
      of this list and call nothing back while they are called.
    - Services, clients, timers and the memory file pool's end are not part. *)

From Coq Require Import List Bool Arith Lia.
From Verif Require Import Base.
Import ListNotations.

(** ** The locks

    [r] numbers the data readers, [w] the data writers of the process. *)
Inductive lck : Type :=
| LSend              (* the registration send thread, util/ecal_thread.h 82-84 *)
| LRecv              (* the registration receive thread, ecal_registration_receiver.cpp 97-115 *)
| LAppl              (* m_callback_custom_apply_sample_map_mtx, ecal_registration_sample_applier.cpp 53 *)
| LSubGate           (* m_topic_name_datareader_sync, ecal_subgate.cpp; shared or exclusive *)
| LPubGate           (* m_topic_name_datawriter_sync, ecal_pubgate.cpp; shared or exclusive *)
| LRcv (r : nat)     (* m_receive_callback_mtx, ecal_reader.cpp *)
| LPm (r : nat)      (* m_pub_map_mtx, ecal_reader.cpp *)
| LREv (r : nat)     (* m_event_callback_map_mtx, ecal_reader.cpp *)
| LRFr (r : nat)     (* m_frequency_calculator_mtx, ecal_reader.cpp *)
| LBuf (r : nat)     (* m_read_buf_mtx, ecal_reader.cpp *)
| LSm (w : nat)      (* m_sub_map_mtx, ecal_writer.cpp *)
| LWEv (w : nat)     (* m_event_callback_map_mtx, ecal_writer.cpp *)
| LWFr (w : nat)     (* m_frequency_calculator_mtx, ecal_writer.cpp *)
| LProv              (* m_applied_sample_list_mtx, ecal_registration_provider.cpp 137, 174 *)
| LTrig              (* mtx_, util/ecal_thread.h 74, 94, 122 *)
| LPool              (* m_observer_pool_sync, ecal_memfile_pool.cpp 374, 433 *)
| LTcp               (* m_datareadertcp_sync, ecal_reader_tcp.cpp 143, 156, 176 *)
| LMem (w : nat)     (* m_event_handle_map_sync of the memory files, ecal_memfile_sync.cpp *)
| LLog.              (* m_log_mtx, ecal_log_impl.cpp *)

#[export] Instance lck_dec : EqDec lck.
Proof. intros a b. decide equality; apply Nat.eq_dec. Defined.

(** ** The callbacks of the user *)
Inductive cbk : Type :=
| KRecv (r : nat)    (* receive callback, ecal_reader.cpp 471 *)
| KDropped (r : nat) (* sub_event_dropped, ecal_reader.cpp 854-864 *)
| KConn (r : nat)    (* sub_event_connected and sub_event_update_connection, ecal_reader.cpp 757, 771 *)
| KDisc (r : nat)    (* sub_event_disconnected, ecal_reader.cpp 792 *)
| KWConn (w : nat)   (* pub_event_connected and pub_event_update_connection, ecal_writer.cpp 750, 764 *)
| KWDisc (w : nat)   (* pub_event_disconnected, ecal_writer.cpp 785 *)
| KReg.              (* registration callback, ecal_registration_sample_applier_user.cpp 115 *)

#[export] Instance cbk_dec : EqDec cbk.
Proof. intros a b. decide equality; apply Nat.eq_dec. Defined.

(** ** Trees of lock scopes *)
Inductive blk : Type :=
| Skip
| Seq (a b : blk)
| With (m : lck) (exclusive : bool) (body : blk)
| Hole (c : cbk)              (* the user's callback is called here *)
| Inside (c : cbk) (body : blk). (* the same, with what the callback does *)

Definition lock (m : lck) (body : blk) : blk := With m true body.
Definition share (m : lck) (body : blk) : blk := With m false body.
Definition once (m : lck) : blk := With m true Skip.

Definition once_shared (m : lck) : blk := With m false Skip.

Fixpoint seqs (l : list blk) : blk :=
  match l with
  | [] => Skip
  | b :: l' => Seq b (seqs l')
  end.

Definition when (c : bool) (b : blk) : blk := if c then b else Skip.

(** Logging::Log, ecal_log_impl.cpp 194-279. *)
Definition log : blk := once LLog.

(** CRegistrationProvider::RegisterSample, ecal_registration_provider.cpp
    111-122, with util/ecal_thread.h 91-100. *)
Definition register_sample : blk := Seq (once LProv) (once LTrig).

(** CRegistrationProvider::UnregisterSample, ecal_registration_provider.cpp
    125-133. *)
Definition unregister_sample : blk := once LProv.

(** ** The data reader *)

(** CDataReader::CDataReader, ecal_reader.cpp 66-102; the layer of tcp takes its
    lock, ecal_reader_tcp.cpp 139-150. *)
Definition reader_new : blk := Seq log (once LTcp).

(** CDataReader::Stop, ecal_reader.cpp 114-144. *)
Definition reader_stop (r : nat) : blk :=
  seqs [log; once LTcp; once (LRcv r); once (LREv r); unregister_sample; log].

(** CDataReader::RemReceiveCallback and AddReceiveCallback, ecal_reader.cpp
    187-219: the log is written under the lock. *)
Definition reader_set_receive (r : nat) : blk := lock (LRcv r) log.

(** CDataReader::AddEventCallback and RemEventCallback, ecal_reader.cpp 221-253:
    the log is written before the lock is taken. *)
Definition reader_set_event (r : nat) : blk := Seq log (once (LREv r)).

(** CDataReader::FireConnectEvent, ecal_reader.cpp 738-774; [new]: the reader was
    not connected before; [cb]: there are callbacks. *)
Definition reader_fire_connect (r : nat) (new cb : bool) : blk :=
  Seq (when new (lock (LREv r) (when cb (Hole (KConn r)))))
      (lock (LREv r) (when cb (Hole (KConn r)))).

(** CDataReader::ApplyPublication, ecal_reader.cpp 284-304. *)
Definition reader_apply_publication (r : nat) (new cb : bool) : blk :=
  Seq (reader_fire_connect r new cb) (once (LPm r)).

(** CDataReader::RemovePublication, ecal_reader.cpp 306-313. *)
Definition reader_remove_publication (r : nat) : blk := once (LPm r).

(** CDataReader::ApplyLayerParameter, ecal_reader.cpp 315-339, with
    CMemFileThreadPool::ObserveFile (ecal_memfile_pool.cpp 368-409) for each of
    the [files] memory files and CTCPReaderLayer::SetConnectionParameter
    (ecal_reader_tcp.cpp 166-182). *)
Definition reader_apply_layers (files : nat) : blk :=
  Seq (seqs (repeat (lock LPool log) files)) (once LTcp).

(** CDataReader::CheckConnections with FireDisconnectEvent, ecal_reader.cpp
    547-556, 776-796; [fire]: the publisher map became empty, the reader was
    connected and a callback is set. *)
Definition reader_check (r : nat) (fire : bool) : blk :=
  lock (LPm r) (when fire (lock (LREv r) (Hole (KDisc r)))).

(** CDataReader::GetRegistration, ecal_reader.cpp 558-565, with GetFrequency
    917-922. *)
Definition reader_registration (r : nat) (fire : bool) : blk :=
  Seq (reader_check r fire) (once (LRFr r)).

(** CDataReader::ApplySample, ecal_reader.cpp 368-495, with CheckMessageClock
    798-915; [drop]: messages are missing and a callback is set; [cb]: there is a
    receive callback, otherwise the sample goes into the read buffer. *)
Definition reader_apply_sample (r : nat) (drop cb : bool) : blk :=
  lock (LRcv r)
    (seqs [log;
           when drop (lock (LREv r) (Hole (KDropped r)));
           once (LRFr r);
           if cb then Hole (KRecv r) else lock (LBuf r) log]).

(** ** The data writer *)

(** CDataWriter::GetRegistrationSample, ecal_writer.cpp 613-709. *)
Definition writer_sample (w : nat) : blk := Seq (once (LWFr w)) (once (LSm w)).

(** CDataWriter::Register, ecal_writer.cpp 570-580. *)
Definition writer_register (w : nat) : blk :=
  seqs [writer_sample w; register_sample; log].

(** CDataWriter::Stop, ecal_writer.cpp 136-166; destroying the memory files takes
    their lock, ecal_memfile_sync.cpp 396-422. *)
Definition writer_stop (w : nat) : blk :=
  seqs [log; lock (LMem w) Skip; once (LSm w); once (LWEv w); unregister_sample; log].

(** CDataWriter::Write, ecal_writer.cpp 168-361; [grow]: the memory file was too
    small and has been made anew (ecal_memfile_sync.cpp 115-137, 305-330), which
    registers again; then SyncContent (ecal_memfile_sync.cpp 332-394). *)
Definition writer_write (w : nat) (grow : bool) : blk :=
  seqs [once (LWFr w); once (LSm w);
        when grow (seqs [once (LMem w); once (LMem w); once (LMem w); writer_register w]);
        lock (LMem w) log; log].

(** CDataWriter::FireConnectEvent, ecal_writer.cpp 731-767. *)
Definition writer_fire_connect (w : nat) (new cb : bool) : blk :=
  Seq (when new (lock (LWEv w) (when cb (Hole (KWConn w)))))
      (lock (LWEv w) (when cb (Hole (KWConn w)))).

(** CDataWriter::ApplySubscription, ecal_writer.cpp 433-504; [start]: a transport
    layer is started, which registers the writer again (791-867). *)
Definition writer_apply_subscription (w : nat) (new cb start : bool) : blk :=
  seqs [writer_fire_connect w new cb;
        when start (Seq log (writer_register w));
        once (LSm w); once (LMem w); log].

(** CDataWriter::RemoveSubscription, ecal_writer.cpp 506-529. *)
Definition writer_remove_subscription (w : nat) : blk :=
  seqs [once (LSm w); once (LMem w); log].

(** CDataWriter::CheckConnections with FireDisconnectEvent, ecal_writer.cpp
    594-603, 769-789. *)
Definition writer_check (w : nat) (fire : bool) : blk :=
  lock (LSm w) (when fire (lock (LWEv w) (Hole (KWDisc w)))).

(** CDataWriter::GetRegistration, ecal_writer.cpp 605-611. *)
Definition writer_registration (w : nat) (fire : bool) : blk :=
  Seq (writer_check w fire) (writer_sample w).

(** ** The calls of the user *)
Inductive call : Type :=
| CreateSub (r : nat)
| DestroySub (r : nat)
| SetReceive (r : nat)           (* AddReceiveCallback *)
| RemReceive (r : nat)
| SetSubEvent (r : nat)          (* AddEventCallback of a subscriber *)
| RemSubEvent (r : nat)
| IsPublished (r : nat)          (* and GetPublisherCount *)
| ReadNow (r : nat)              (* ReceiveBuffer that finds a message *)
| CreatePub (w : nat)
| DestroyPub (w : nat)
| Send (w : nat) (subscribed grow : bool)
| SetPubEvent (w : nat)
| RemPubEvent (w : nat)
| IsSubscribed (w : nat)         (* and GetSubscriberCount *)
| WriteLog
| SetCustomer                    (* SetCustomApplySampleCallback: starting or stopping monitoring *)
| Finalize (rs ws : list nat).   (* with the readers and writers still registered *)

(** The calls as trees; no call of the user calls a callback itself. *)
Definition call_blk (c : call) : blk :=
  match c with
  (* CSubscriber::Create, ecal_subscriber.cpp 78-92; CSubGate::Register,
     ecal_subgate.cpp 73-82 *)
  | CreateSub _ => Seq reader_new (once LSubGate)
  (* CSubscriber::Destroy, ecal_subscriber.cpp 99-122; CSubGate::Unregister,
     ecal_subgate.cpp 84-102 *)
  | DestroySub r => seqs [reader_set_receive r; once LSubGate; log; reader_stop r; log]
  (* CSubscriber::AddReceiveCallback, ecal_subscriber.cpp 149-154 *)
  | SetReceive r => Seq (reader_set_receive r) (reader_set_receive r)
  (* CSubscriber::RemReceiveCallback, ecal_subscriber.cpp 156-160 *)
  | RemReceive r => reader_set_receive r
  (* CSubscriber::AddEventCallback, ecal_subscriber.cpp 162-167 *)
  | SetSubEvent r => Seq (reader_set_event r) (reader_set_event r)
  (* CSubscriber::RemEventCallback, ecal_subscriber.cpp 169-173 *)
  | RemSubEvent r => reader_set_event r
  (* CDataReader::IsPublished and GetPublisherCount, ecal_reader.h 106-116 *)
  | IsPublished r => once (LPm r)
  (* CDataReader::Read, ecal_reader.cpp 146-185 *)
  | ReadNow r => lock (LBuf r) log
  (* CPublisher::Create, ecal_publisher.cpp 88-102; CPubGate::Register,
     ecal_pubgate.cpp 82-91 *)
  | CreatePub _ => Seq log (once LPubGate)
  (* CPublisher::Destroy, ecal_publisher.cpp 109-128; CPubGate::Unregister,
     ecal_pubgate.cpp 93-111 *)
  | DestroyPub w => seqs [once LPubGate; log; writer_stop w; log]
  (* CPublisher::Send, ecal_publisher.cpp 160-181; IsSubscribed, ecal_writer.h
     113-117; RefreshSendCounter, ecal_writer.cpp 531-544 *)
  | Send w subscribed grow =>
      Seq (once (LSm w)) (if subscribed then writer_write w grow else once (LWFr w))
  (* CPublisher::AddEventCallback, ecal_publisher.cpp 188-193; ecal_writer.cpp
     399-414 *)
  | SetPubEvent w => seqs [log; once (LWEv w); log; once (LWEv w)]
  (* CPublisher::RemEventCallback, ecal_publisher.cpp 195-199; ecal_writer.cpp
     416-431 *)
  | RemPubEvent w => Seq log (once (LWEv w))
  (* CDataWriter::IsSubscribed and GetSubscriberCount, ecal_writer.h 113-123 *)
  | IsSubscribed w => once (LSm w)
  | WriteLog => log
  (* CSampleApplier::SetCustomApplySampleCallback and RemCustomApplySampleCallback,
     ecal_registration_sample_applier.cpp 119-133 *)
  | SetCustomer => once LAppl
  (* CGlobals::Finalize, ecal_globals.cpp 275-319: monitoring, CPubGate::Stop
     (ecal_pubgate.cpp 57-70), CSubGate::Stop (ecal_subgate.cpp 58-71), the end
     of the registration receiver (ecal_registration_receiver.cpp 97-115) and
     provider (ecal_registration_provider.cpp 91-108), and the log
     (ecal_log_impl.cpp 168-180) *)
  | Finalize rs ws =>
      seqs [once LAppl;
            lock LPubGate (seqs (map writer_stop ws));
            lock LSubGate (seqs (map reader_stop rs));
            once LRecv;
            once LProv; once LTrig; once LTrig; once LSend;
            log]
  end.

(** ** What the threads of the library do *)

(** A reader that matches a publisher registration: number, memory files named,
    publication confirmed, reader new to it, event callback set. *)
Record rmatch := { rm_r : nat; rm_files : nat; rm_conf : bool; rm_new : bool; rm_cb : bool }.
Record wmatch := { wm_w : nat; wm_new : bool; wm_cb : bool; wm_start : bool }.

Inductive job : Type :=
| PubRegistered (l : list rmatch) (user : bool)
| PubUnregistered (l : list nat) (user : bool)
| SubRegistered (l : list wmatch) (user : bool)
| SubUnregistered (l : list nat) (user : bool)
| OtherRegistered (user : bool)                      (* processes, services, clients *)
| SendCycle (rs ws : list (nat * bool))              (* bool: a disconnect is fired *)
| Sample (l : list (nat * (bool * bool)))            (* reader, (messages missing, receive callback) *)
| HasSample
| CleanPool.

(** CSampleApplier::ApplySample, ecal_registration_sample_applier.cpp 43-60: all
    customers are called under the lock, the gates and the user's registration
    callback among them ([user]: there is one for this kind of sample). *)
Definition applied (gates : blk) (user : bool) : blk :=
  lock LRecv (lock LAppl (Seq (when user (Hole KReg)) gates)).

Definition job_blk (j : job) : blk :=
  match j with
  (* CSubGate::ApplyPubRegistration, ecal_subgate.cpp 212-274 *)
  | PubRegistered l user =>
      applied (share LSubGate
        (seqs (map (fun x => Seq (reader_apply_layers (rm_files x))
                                 (when (rm_conf x)
                                    (reader_apply_publication (rm_r x) (rm_new x) (rm_cb x)))) l))) user
  (* CSubGate::ApplyPubUnregistration, ecal_subgate.cpp 276-299 *)
  | PubUnregistered l user =>
      applied (share LSubGate (seqs (map reader_remove_publication l))) user
  (* CPubGate::ApplySubRegistration, ecal_pubgate.cpp 113-172 *)
  | SubRegistered l user =>
      applied (share LPubGate
        (seqs (map (fun x => writer_apply_subscription (wm_w x) (wm_new x) (wm_cb x) (wm_start x)) l))) user
  (* CPubGate::ApplySubUnregistration, ecal_pubgate.cpp 174-197 *)
  | SubUnregistered l user =>
      applied (share LPubGate (seqs (map writer_remove_subscription l))) user
  | OtherRegistered user => applied Skip user
  (* CRegistrationProvider::RegisterSendThread, ecal_registration_provider.cpp
     141-179; CSubGate::GetRegistrations, ecal_subgate.cpp 301-311;
     CPubGate::GetRegistrations, ecal_pubgate.cpp 199-209; CCallbackThread,
     util/ecal_thread.h 117-144 *)
  | SendCycle rs ws =>
      lock LSend
        (seqs [once LTrig;
               share LSubGate (seqs (map (fun x => reader_registration (fst x) (snd x)) rs));
               share LPubGate (seqs (map (fun x => writer_registration (fst x) (snd x)) ws));
               once LProv])
  (* CSubGate::ApplySample, ecal_subgate.cpp 110-210: the gate is locked only
     while the readers are collected *)
  | Sample l =>
      Seq (once_shared LSubGate)
          (seqs (map (fun x => reader_apply_sample (fst x) (fst (snd x)) (snd (snd x))) l))
  (* CSubGate::HasSample, ecal_subgate.cpp 104-108 *)
  | HasSample => once_shared LSubGate
  (* CMemFileThreadPool::CleanupPool, ecal_memfile_pool.cpp 430-451 *)
  | CleanPool => lock LPool log
  end.

(** ** Filling the callbacks in

    [beh] lists what the user's callbacks do, one list of calls for each time a
    callback is called; when it is used up they do nothing. *)
Fixpoint fill (b : blk) (beh : list (list call)) : blk * list (list call) :=
  match b with
  | Skip => (Skip, beh)
  | Seq a b' =>
      let (a1, beh1) := fill a beh in
      let (b1, beh2) := fill b' beh1 in (Seq a1 b1, beh2)
  | With m e body => let (b1, beh1) := fill body beh in (With m e b1, beh1)
  | Hole c =>
      match beh with
      | [] => (Inside c Skip, [])
      | l :: beh' => (Inside c (seqs (map call_blk l)), beh')
      end
  | Inside c body => (Inside c body, beh)
  end.

(** A piece of work of a thread: a call of the user, or a job of the library with
    what the callbacks do. *)
Inductive work : Type :=
| Api (c : call)
| Job (j : job) (beh : list (list call)).

Definition work_blk (w : work) : blk :=
  match w with
  | Api c => call_blk c
  | Job j beh => fst (fill (job_blk j) beh)
  end.

(** ** Threads *)
Inductive ins : Type :=
| Take (m : lck)     (* std::mutex::lock; std::shared_timed_mutex::lock *)
| Share (m : lck)    (* std::shared_timed_mutex::lock_shared *)
| Drop (m : lck)     (* unlock, unlock_shared *)
| Enter (c : cbk)
| Leave (c : cbk).

Fixpoint flat (b : blk) : list ins :=
  match b with
  | Skip => []
  | Seq a b' => flat a ++ flat b'
  | With m e body => (if e then Take m else Share m) :: flat body ++ [Drop m]
  | Hole _ => []
  | Inside c body => Enter c :: flat body ++ [Leave c]
  end.

Definition program (l : list work) : list ins := flat (seqs (map work_blk l)).

(** What a thread has entered and not left, the latest first. *)
Inductive mark : Type :=
| Held (m : lck) (exclusive : bool)
| In_ (c : cbk).

Record thr := { todo : list ins; has : list mark }.

Definition holds (m : lck) (t : thr) : bool :=
  existsb (fun k => match k with Held m' _ => eqb m' m | In_ _ => false end) (has t).

Definition holds_ex (m : lck) (t : thr) : bool :=
  existsb (fun k => match k with Held m' e => eqb m' m && e | In_ _ => false end) (has t).

Definition awaits_ex (m : lck) (t : thr) : bool :=
  match todo t with Take m' :: _ => eqb m' m | _ => false end.

Definition sys := list thr.

(** Whether the next instruction can be executed.  The standard leaves open
    whether a thread that waits for exclusive access keeps others from sharing
    ([wf], writers first). *)
Definition can (wf : bool) (s : sys) (i : ins) : bool :=
  match i with
  | Take m => negb (existsb (holds m) s)
  | Share m => negb (existsb (holds_ex m) s) && negb (wf && existsb (awaits_ex m) s)
  | _ => true
  end.

Fixpoint pop_lock (m : lck) (l : list mark) : list mark :=
  match l with
  | [] => []
  | Held m' e :: l' => if eqb m' m then l' else Held m' e :: pop_lock m l'
  | k :: l' => k :: pop_lock m l'
  end.

Fixpoint pop_in (c : cbk) (l : list mark) : list mark :=
  match l with
  | [] => []
  | In_ c' :: l' => if eqb c' c then l' else In_ c' :: pop_in c l'
  | k :: l' => k :: pop_in c l'
  end.

Definition exec (i : ins) (l : list mark) : list mark :=
  match i with
  | Take m => Held m true :: l
  | Share m => Held m false :: l
  | Drop m => pop_lock m l
  | Enter c => In_ c :: l
  | Leave c => pop_in c l
  end.

Fixpoint put (n : nat) (t : thr) (s : sys) {struct s} : sys :=
  match s, n with
  | [], _ => []
  | _ :: s', 0 => t :: s'
  | t' :: s', S n' => t' :: put n' t s'
  end.

(** Thread [n] executes its next instruction, if it has one and can. *)
Definition step (wf : bool) (n : nat) (s : sys) : option sys :=
  match nth_error s n with
  | Some t =>
      match todo t with
      | i :: rest => if can wf s i then Some (put n {| todo := rest; has := exec i (has t) |} s) else None
      | [] => None
      end
  | None => None
  end.

(** What happens: a thread tries to go on, or a new thread appears with its work. *)
Inductive evt : Type :=
| Run (n : nat)
| Spawn (l : list work).

Definition do_evt (wf : bool) (s : sys) (e : evt) : sys :=
  match e with
  | Run n => match step wf n s with Some s' => s' | None => s end
  | Spawn l => s ++ [{| todo := program l; has := [] |}]
  end.

Definition run (wf : bool) (es : list evt) : sys := fold_left (do_evt wf) es [].
