(** Model of registration over shared memory:
    ecal/core/src/registration/shm/ecal_memfile_broadcast_writer.cpp,
    ecal_memfile_broadcast_reader.cpp, ecal_registration_sender_shm.cpp and
    ecal_registration_receiver_shm.cpp.
    Any number of sending processes, one receiving process.  The event queue between
    them is used through its specification (C04: a poll returns the events sent since
    the previous poll, newest first). A payload is the list of samples it encodes; encoding
    and decoding are the subject of C41. *)
From Verif Require Import Base.

Inductive evtype := EvCreated | EvUpdated | EvRemoved.

Section ShmReg.
  Context {S : Type}.
  (** Number of bytes a sample list is serialised to. *)
  Variable sz : list S -> Z.

  (** CMemoryFileBroadcastWriter: m_event_id, MaxDataSize of the payload file, m_reset. *)
  Record writer := Writer { w_id : Z; w_max : Z; w_reset : bool }.

  Record shmsys := ShmSys {
    ss_store : list (Z * list S);     (* content of every payload file ever created, by event id *)
    ss_linked : list Z;               (* payload files that can still be opened by name *)
    ss_pending : list (Z * evtype);   (* events not yet polled by the receiver, oldest first *)
    ss_writers : list (nat * writer); (* bound writers, by process *)
    ss_snap : option (list (Z * evtype)); (* m_broadcast_event_list of a Read in progress, newest first *)
    ss_open : list (Z * bool);        (* m_payload_memfiles: id -> payload file successfully opened *)
    ss_applied : list S }.            (* samples handed to the sample applier, in order *)

  Definition ss_init : shmsys := ShmSys [] [] [] [] None [] [].

  (** CMemoryFileBroadcastWriter::Bind, writer lines 33-50; the id is fresh. *)
  Definition ss_bind (w : nat) (id : Z) (s : shmsys) : shmsys :=
    match aget w (ss_writers s) with
    | Some _ => s
    | None => ShmSys (aset id [] (ss_store s)) (id :: ss_linked s) (ss_pending s ++ [(id, EvCreated)])
                     (aset w (Writer id 1024 false) (ss_writers s)) (ss_snap s) (ss_open s) (ss_applied s)
    end.

  Definition unlink (id : Z) (l : list Z) : list Z := filter (fun x => negb (Z.eqb x id)) l.

  (** CRegistrationSenderSHM::SendSampleList (sender lines 54-69) and
      CMemoryFileBroadcastWriter::Write (writer lines 53-93).  [nid] is the event id
      used if a new payload file is needed, [lock_ok] whether write access was
      granted.  Creating the file is assumed to succeed.  CMemoryFile::WriteBuffer writes
      nothing if the data do not fit; its result is ignored (writer line 80). *)
  Definition ss_write (w : nat) (m : list S) (nid : Z) (lock_ok : bool) (s : shmsys) : shmsys :=
    match m with
    | [] => s
    | _ =>
      match aget w (ss_writers s) with
      | None => s
      | Some wr =>
          let '(s1, wr1) :=
            if Z.ltb (w_max wr) (sz m) || w_reset wr
            then (ShmSys (aset nid [] (ss_store s)) (nid :: unlink (w_id wr) (ss_linked s))
                         (ss_pending s ++ [(w_id wr, EvRemoved); (nid, EvCreated)])
                         (ss_writers s) (ss_snap s) (ss_open s) (ss_applied s),
                  Writer nid (sz m * 2) false)
            else (s, wr) in
          if lock_ok
          then ShmSys (if Z.leb (sz m) (w_max wr1) then aset (w_id wr1) m (ss_store s1) else ss_store s1) (ss_linked s1) (ss_pending s1 ++ [(w_id wr1, EvUpdated)])
                      (aset w wr1 (ss_writers s1)) (ss_snap s1) (ss_open s1) (ss_applied s1)
          else ShmSys (ss_store s1) (ss_linked s1) (ss_pending s1)
                      (aset w (Writer (w_id wr1) (w_max wr1) true) (ss_writers s1)) (ss_snap s1) (ss_open s1) (ss_applied s1)
      end
    end.

  (** CMemoryFileBroadcastWriter::Unbind, writer lines 95-105. *)
  Definition ss_unbind (w : nat) (s : shmsys) : shmsys :=
    match aget w (ss_writers s) with
    | None => s
    | Some wr => ShmSys (ss_store s) (unlink (w_id wr) (ss_linked s)) (ss_pending s ++ [(w_id wr, EvRemoved)])
                        (adel w (ss_writers s)) (ss_snap s) (ss_open s) (ss_applied s)
    end.

  (** The loop of CMemoryFileBroadcastReader::Read, reader lines 63-122, over the
      polled events newest first.  [handled] is handled_event_ids, [opened] is
      m_payload_memfiles, [lock id] whether read access is granted.
      Result: return_result, the map, and the messages read. *)
  Fixpoint rd_loop (lock : Z -> bool) (linked : list Z) (store : list (Z * list S))
      (handled : list Z) (opened : list (Z * bool)) (evs : list (Z * evtype))
    : bool * list (Z * bool) * list (list S) :=
    match evs with
    | [] => (true, opened, [])
    | (id, ty) :: evs' =>
        if existsb (Z.eqb id) handled then rd_loop lock linked store handled opened evs'
        else
          let handled' := id :: handled in
          let is_new := match aget id opened with None => true | Some _ => false end in
          let can_open := existsb (Z.eqb id) linked in
          let must_open := is_new && match ty with EvRemoved => false | _ => true end in
          let opened1 := if is_new then aset id (must_open && can_open) opened else opened in
          if must_open && negb can_open
          then let '(_, o, ms) := rd_loop lock linked store handled' opened1 evs' in (false, o, ms)
          else match ty with
               | EvUpdated =>
                   if match aget id opened1 with Some true => lock id | _ => false end
                   then let '(r, o, ms) := rd_loop lock linked store handled' opened1 evs' in
                        (r, o, match aget id store with Some m => m | None => [] end :: ms)
                   else let '(_, o, ms) := rd_loop lock linked store handled' opened1 evs' in (false, o, ms)
               | EvRemoved => rd_loop lock linked store handled' (adel id opened1) evs'
               | EvCreated => rd_loop lock linked store handled' opened1 evs'
               end
    end.

  (** CRegistrationReceiverSHM::Receive, receiver lines 71-87: sample_list is
      declared outside of the loop and only ever appended to. *)
  Fixpoint rcv_messages (acc : list S) (ms : list (list S)) : list S :=
    match ms with
    | [] => []
    | m :: ms' => match m with
                  | [] => rcv_messages acc ms'              (* empty buffer: DeserializeFromBuffer fails *)
                  | _ => (acc ++ m) ++ rcv_messages (acc ++ m) ms'
                  end
    end.

  (** Read, first part: ReceiveEvents copies the new events. *)
  Definition ss_snapshot (s : shmsys) : shmsys :=
    match ss_snap s with
    | Some _ => s
    | None => ShmSys (ss_store s) (ss_linked s) [] (ss_writers s) (Some (rev (ss_pending s))) (ss_open s) (ss_applied s)
    end.
  (** Read, second part, and the rest of Receive. *)
  Definition ss_process (lock : Z -> bool) (s : shmsys) : shmsys :=
    match ss_snap s with
    | None => s
    | Some evs =>
        let '(r, o, ms) := rd_loop lock (ss_linked s) (ss_store s) [] (ss_open s) evs in
        ShmSys (ss_store s) (ss_linked s) (ss_pending s) (ss_writers s) None o
               (if r then ss_applied s ++ rcv_messages [] ms else ss_applied s)
    end.

  Inductive ssop :=
  | SBind (w : nat) (id : Z)
  | SWrite (w : nat) (m : list S) (nid : Z) (lock_ok : bool)
  | SUnbind (w : nat)
  | SSnapshot
  | SProcess (lock : Z -> bool).
  Definition ss_step (s : shmsys) (o : ssop) : shmsys :=
    match o with
    | SBind w id => ss_bind w id s
    | SWrite w m nid l => ss_write w m nid l s
    | SUnbind w => ss_unbind w s
    | SSnapshot => ss_snapshot s
    | SProcess l => ss_process l s
    end.
  Definition ss_run (s : shmsys) (os : list ssop) : shmsys := fold_left ss_step os s.
End ShmReg.
Arguments shmsys : clear implicits.
Arguments ssop : clear implicits.
