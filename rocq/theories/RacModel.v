(** * Rac: which data the threads of a process share, and under which locks

    Every function is the tree of its lock scopes together with the member
    variables it reads and writes, in order.  Values are left out: what counts is
    who touches which variable while holding which lock.

    Simplifications.
    - A condition that is not modelled is a choice: the branch may be taken or not,
      and a loop runs any number of times.
    - One publisher, one subscriber, one client and one server stand for all; each
      has one thread of the user that calls it outside callbacks.  All the calls
      that concern no such object may be made by any number of threads.
    - Waiting for a thread to end is taking a lock which that thread holds while it
      works, and never giving it back ([Keep]).
    - A function that removes an object from its gate does so with the gate locked
      exclusively.  From then on no thread finds the object, and those that had found
      it under the lock of the gate have left.  This is a lock of the object
      ([LIn]) that is held by those who found it in the gate and is taken for good
      by the one who removed it.
    - Building an object is no access: its parts can be found only after it was
      entered into the gate.
    - What the libraries underneath do, and the callbacks of the user, touch nothing
      of this list. *)

From Coq Require Import List Bool Arith.
From Verif Require Import Base.
Import ListNotations.

(** ** What is shared *)

(** The transport layers, and the kinds of entities. *)
Inductive lay : Type := LyUdp | LyShm | LyTcp.
Inductive ent : Type := EPub | ESub | ESrv | ECli | EPrc.

(** The variables. *)
Inductive fld : Type :=
(* CDataWriter, readwrite/ecal_writer.h 155-195 *)
| WMeta            (* the names, the process and the configuration, 155-160, 164 *)
| WInfo            (* m_topic_info, 161 *)
| WAttr            (* m_attr, 162 *)
| WSize            (* m_topic_size, 163 *)
| WBuf             (* m_payload_buffer, 166 *)
| WConn            (* m_connected, atomic, 168 *)
| WSubs            (* m_sub_map, 172 *)
| WEvts            (* m_event_callback_map, 176 *)
| WId              (* m_id, 178 *)
| WClock           (* m_clock, 179 *)
| WFreq            (* m_frequency_calculator, 182 *)
| WPtr (l : lay)   (* m_writer_udp, m_writer_shm, m_writer_tcp, 185-191 *)
| WRead (l : lay)  (* m_layers.*.read_enabled, 194 *)
| WWrite (l : lay) (* m_layers.*.write_enabled, 194 *)
| WAct (l : lay)   (* m_layers.*.active, 194 *)
| WMade            (* m_created, atomic, 195 *)
(* the writers of the layers *)
| UBuf             (* m_sample_buffer, udp/ecal_writer_udp.h *)
| TBuf             (* m_header_buffer, tcp/ecal_writer_tcp.h *)
| TExec            (* g_tcp_writer_executor, tcp/ecal_writer_tcp.cpp *)
| SFiles           (* m_memory_file_vec, shm/ecal_writer_shm.h *)
| SIdx             (* m_write_idx, shm/ecal_writer_shm.h *)
(* CSyncMemoryFile, io/shm/ecal_memfile_sync.h 72-86 *)
| FName            (* m_memfile_name, 73 *)
| FFile            (* m_memfile, 74 *)
| FAttr            (* m_attr, 75 *)
| FMade            (* m_created, not atomic, 76 *)
| FEvts            (* m_event_handle_map, 86 *)
(* CDataReader, readwrite/ecal_reader.h 145-193 *)
| RMeta            (* the names, the process, the type and the configuration, 145-152, 155, 189-190 *)
| RAttr            (* m_attr, 153 *)
| RSize            (* m_topic_size, atomic, 154 *)
| RConn            (* m_connected, atomic, 157 *)
| RPubs            (* m_pub_map, 160 *)
| RFlag            (* m_read_buf_received, 164 *)
| RBuf             (* m_read_buf, 165 *)
| RTime            (* m_read_time, 166 *)
| RCall            (* m_receive_callback, 169 *)
| RWait            (* m_receive_time, atomic, 170 *)
| RHash            (* m_sample_hash_queue, 172 *)
| REvts            (* m_event_callback_map, 176 *)
| RClock           (* m_clock, atomic, 178 *)
| RFreq            (* m_frequency_calculator, 181 *)
| RIds             (* m_id_set, 183 *)
| RCnt             (* m_writer_counter_map, 186 *)
| RDrop            (* m_message_drops, 187 *)
| RRead (l : lay)  (* m_layers.*.read_enabled, 192 *)
| RWrite (l : lay) (* m_layers.*.write_enabled, 192 *)
| RAct (l : lay)   (* m_layers.*.active, 192 *)
| RMade            (* m_created, atomic, 193 *)
(* the reader layers, shared by all subscribers *)
| UStart           (* m_started, udp/ecal_reader_udp.h 56 *)
| ULocal           (* m_local_mode, 57 *)
| URecv            (* m_payload_receiver, 58 *)
| UCast            (* m_topic_name_mcast_map, 59 *)
| TInit            (* m_initialized, atomic, tcp/ecal_reader_tcp.h 77 *)
| TRun             (* m_executor, 78 *)
| TMap             (* m_datareadertcp_map, 82 *)
| PPool            (* m_observer_pool, io/shm/ecal_memfile_pool.h 108 *)
(* CServiceClientImpl, service/ecal_service_client_impl.h 114-139 *)
| CMap             (* m_client_map, 114 *)
| CResp            (* m_response_callback, 117 *)
| CEvts            (* m_event_callback_map, 121 *)
| CConn            (* m_connected_services_map, 125 *)
| CName            (* m_service_name, 129 *)
| CId              (* m_service_id, 130 *)
| CHost            (* m_host_name, 131 *)
| CMeth            (* m_method_information_map, 134 *)
| CCount           (* m_method_call_count_map, 137 *)
| CMade            (* m_created, atomic, 139 *)
(* CServiceServerImpl, service/ecal_service_server_impl.h 105-131 *)
| VTcp             (* m_tcp_server_v0, m_tcp_server_v1, 105-106 *)
| VName            (* m_service_name, 110 *)
| VId              (* m_service_id, 111 *)
| VMeth            (* m_method_map, 121 *)
| VEvts            (* m_event_callback_map, 125 *)
| VConn            (* m_connected_v0, m_connected_v1, 128-129 *)
| VMade            (* m_created, atomic, 131 *)
(* the gates *)
| GMap (e : ent)   (* m_topic_name_datawriter_map, m_topic_name_datareader_map, m_service_set, m_client_set *)
| GServ            (* m_service_register_map, service/ecal_clientgate.h *)
(* registration *)
| ALoop            (* m_loopback, registration/ecal_registration_sample_applier.h 63 *)
| ACall            (* m_callback_custom_apply_sample_map, 69 *)
| AUser            (* m_callback_pub ... m_callback_process, registration/ecal_registration_sample_applier_user.h *)
| PSend            (* m_reg_sender, registration/ecal_registration_provider.h *)
| PList            (* m_applied_sample_list, 62 *)
| PTrig            (* triggerThread_, stopThread_, util/ecal_thread.h *)
| PMade            (* m_created, atomic, ecal_registration_provider.cpp 49 *)
(* description gate and monitoring *)
| DMap (e : ent)   (* the maps of the description gate, ecal_descgate.h *)
| MMap (e : ent)   (* the maps of the monitoring, monitoring/ecal_monitoring_impl.h *)
| MText            (* m_topic_filter_excl_s, m_topic_filter_incl_s *)
| MExcl            (* m_topic_filter_excl *)
| MIncl            (* m_topic_filter_incl *)
(* logging, logging/ecal_log_impl.h 111-131 *)
| LMade            (* m_created, atomic, 111 *)
| LSend            (* m_udp_logging_sender, 112 *)
| LList            (* m_log_msglist, 115 *)
| LBuf             (* m_log_message_vec, 116 *)
| LFile            (* m_logfile, 126 *)
| LLev             (* m_level, 128 *)
| LMask            (* the filters, 129-131 *)
(* globals of the process, ecal_global_accessors.h *)
| GUnit            (* g_unit_name *)
| GState.          (* g_process_severity, g_process_severity_level, g_process_info *)

#[export] Instance lay_dec : EqDec lay. Proof. intros a b; decide equality. Defined.
#[export] Instance ent_dec : EqDec ent. Proof. intros a b; decide equality. Defined.
#[export] Instance fld_dec : EqDec fld. Proof. intros a b; decide equality; apply eq_dec. Defined.

(** The locks. *)
Inductive lk : Type :=
| KSubs | KWEv | KWFr     (* ecal_writer.h 171, 175, 181 *)
| KFile                   (* ecal_memfile_sync.h 85 *)
| KTExec                  (* g_tcp_writer_executor_mtx, tcp/ecal_writer_tcp.h *)
| KPubs | KRead | KRecv | KREv | KRFr  (* ecal_reader.h 159, 162, 168, 175, 180 *)
| KTMap                   (* ecal_reader_tcp.h 81 *)
| KPool                   (* ecal_memfile_pool.h 107 *)
| KCMap | KResp | KCEv | KConn | KMeth (* ecal_service_client_impl.h 113, 116, 119, 123, 133 *)
| KVMeth | KVEv | KVConn  (* ecal_service_server_impl.h 120, 124, 127 *)
| KGate (e : ent)         (* the locks of the gates *)
| KIn (e : ent)           (* an entity is in its gate *)
| KServ                   (* m_service_register_map_sync *)
| KAppl                   (* ecal_registration_sample_applier.h 67 *)
| KList                   (* ecal_registration_provider.h 61 *)
| KTrig                   (* mtx_, ecal_thread.h *)
| KRun                    (* the send thread works *)
| KDesc (e : ent) | KMon (e : ent) | KExcl | KIncl (* ecal_descgate.h, ecal_monitoring_impl.h *)
| KLog.                   (* ecal_log_impl.h 109 *)

#[export] Instance lk_dec : EqDec lk. Proof. intros a b; decide equality; apply eq_dec. Defined.

(** [std::atomic] variables. *)
Definition atomic (f : fld) : bool :=
  match f with
  | WConn | WMade | RSize | RConn | RWait | RClock | RMade | TInit | CMade | VMade | PMade | LMade => true
  | _ => false
  end.

(** ** Programs *)
Inductive stm : Type :=
| Skip
| Rd (f : fld)
| Wr (f : fld)
| Seq (a b : stm)
| Alt (a b : stm)                  (* one of the two *)
| Loop (a : stm)                   (* any number of times *)
| Hold (l : lk) (sh : bool) (a : stm)  (* lock_guard, unique_lock ([sh] = false) or shared_lock ([sh] = true) *)
| Keep (l : lk) (a : stm).         (* from here on for ever *)

Definition Opt (a : stm) : stm := Alt a Skip.
Definition Up (f : fld) : stm := Seq (Rd f) (Wr f).
Definition all (l : list stm) : stm := fold_right Seq Skip l.
Definition each (g : lay -> stm) : stm := all [g LyUdp; g LyShm; g LyTcp].
Definition X (l : lk) (a : list stm) : stm := Hold l false (all a).
Definition Sh (l : lk) (a : list stm) : stm := Hold l true (all a).

(** ** The publisher *)

(** CRegistrationProvider::RegisterSample and UnregisterSample, ecal_registration_provider.cpp 111-139;
    CCallbackThread::trigger, util/ecal_thread.h 91-100. *)
Definition s_trigger : stm := X KTrig [Wr PTrig].
Definition s_register : stm := all [Rd PMade; Opt (all [X KList [Up PList]; s_trigger])].
Definition s_unregister : stm := all [Rd PMade; Opt (X KList [Up PList])].

(** CSyncMemoryFile::DisconnectAll, Destroy, Create, Connect, Recreate, CheckSize, SyncContent, Write and
    GetName, io/shm/ecal_memfile_sync.cpp 51-137, 139-233, 240-421.  The mark that the file is created
    decides whether the rest runs. *)
Definition f_destroy : stm := all [Rd FMade; Opt (all [Wr FMade; Wr FName; X KFile [Rd FEvts; Wr FEvts]; Wr FFile])].
Definition f_create : stm := all [Rd FMade; Opt (all [Wr FName; Rd FName; Rd FAttr; Wr FFile; Wr FMade])].
Definition f_connect : stm := all [Rd FMade; Opt (all [Rd FName; X KFile [Rd FEvts; Wr FEvts]])].
Definition f_recreate : stm := all [X KFile [Rd FEvts]; f_destroy; f_create; Loop f_connect].
Definition f_check : stm := all [Rd FMade; Opt (all [Rd FFile; Opt f_recreate])].
Definition f_sync : stm := all [Rd FMade; Opt (X KFile [Rd FAttr; Rd FEvts; Opt (Wr FEvts)])].
Definition f_write : stm := all [Rd FMade; Opt (all [Wr FAttr; Rd FAttr; Wr FFile; Opt (all [f_recreate; Wr FFile]); Opt f_sync])].
Definition f_name : stm := Rd FName.

(** CDataWriter::RefreshSendCounter, ecal_writer.cpp 531-544, GetFrequency 951-956; getFrequency of the
    frequency calculator writes, util/frequency_calculator.h 112-143. *)
Definition w_refresh : stm := all [Up WClock; X KWFr [Up WFreq]].
Definition w_freq : stm := X KWFr [Up WFreq].

(** CDataWriter::GetRegistrationSample, ecal_writer.cpp 613-709: the layers 646-682, the names of the memory
    files through GetConnectionParameter, shm/ecal_writer_shm.cpp 104-112. *)
Definition w_layer (l : lay) : stm :=
  all [Rd (WPtr l); Opt (all [Rd (WWrite l); Rd (WAct l); Rd (WPtr l);
    match l with LyShm => all [Rd SFiles; Loop f_name] | _ => Skip end])].
Definition w_sample : stm :=
  all [Rd WMeta; Opt (Rd WInfo); Rd WAttr; Rd WSize; each w_layer; Rd GUnit; Rd WId; Rd WClock; w_freq; X KSubs [Rd WSubs]].
Definition w_register : stm := all [w_sample; s_register].

(** The layer writers: CDataWriterSHM::PrepareWrite and Write, shm/ecal_writer_shm.cpp 62-88; the udp and tcp
    ones, udp/ecal_writer_udp.cpp 74-122, tcp/ecal_writer_tcp.cpp 76-152. *)
Definition w_shm_prepare : stm := all [Rd SFiles; Up SIdx; f_check].
Definition w_shm_write : stm := all [Rd SFiles; Rd SIdx; f_write; Up SIdx].
Definition w_put (l : lay) : stm :=
  match l with
  | LyShm => all [Rd WId; Rd WClock; Rd (WPtr LyShm); w_shm_prepare; Opt w_register; Rd (WPtr LyShm); Opt (Rd WBuf); w_shm_write; Wr (WAct LyShm)]
  | LyUdp => all [Rd WId; Rd WClock; Rd (WPtr LyUdp); Opt w_register; Rd (WPtr LyUdp); Rd WBuf; Wr UBuf; Rd UBuf; Wr (WAct LyUdp)]
  | LyTcp => all [Rd WId; Rd WClock; Rd (WPtr LyTcp); Rd WBuf; Wr TBuf; Rd TBuf; Wr (WAct LyTcp)]
  end.

(** CDataWriter::Write, ecal_writer.cpp 168-361; PrepareWrite 896-913. *)
Definition w_write : stm :=
  all [Rd WMeta; Rd (WPtr LyUdp); Rd (WPtr LyTcp); Opt (Wr WBuf);
       Wr WId; w_refresh; Rd WMeta; Rd WClock; Wr WSize;
       Rd (WPtr LyShm); Opt (w_put LyShm); Rd (WPtr LyUdp); Opt (w_put LyUdp); Rd (WPtr LyTcp); Opt (w_put LyTcp)].

(** CPublisher::Send, pubsub/ecal_publisher.cpp 160-181, with IsSubscribed, ecal_writer.h 113-117. *)
Definition w_send : stm := all [X KSubs [Rd WSubs]; Alt w_refresh w_write].

(** CDataWriter::Stop, ecal_writer.cpp 136-166; StopAllLayer 869-894; Unregister 582-592 with
    GetUnregistrationSample 711-729. *)
Definition w_stop : stm :=
  all [Rd WMade; Opt (all [
    each (fun l => all [Wr (WWrite l); match l with LyShm => all [Rd SFiles; Loop f_destroy; Wr SFiles] | _ => Skip end; Wr (WPtr l)]);
    X KSubs [Wr WSubs]; X KWEv [Wr WEvts]; Wr WMade; Rd WMeta; Rd GUnit; s_unregister])].

(** CPublisher::Destroy, ecal_publisher.cpp 109-128: CPubGate::Unregister, ecal_pubgate.cpp 93-111, then
    Stop.  CPubGate::Stop, ecal_pubgate.cpp 57-70. *)
Definition w_destroy : stm := all [X (KGate EPub) [Up (GMap EPub)]; Keep (KIn EPub) w_stop].
Definition w_gate_stop : stm := X (KGate EPub) [Rd (GMap EPub); w_stop; Wr (GMap EPub)].

(** CDataWriter::FireConnectEvent 731-767 and FireDisconnectEvent 769-789. *)
Definition w_fire_connect : stm := all [Rd WConn; Opt (all [Wr WConn; X KWEv [Rd WEvts]]); X KWEv [Rd WEvts]].
Definition w_fire_disconnect : stm := all [Rd WConn; Opt (all [Wr WConn; X KWEv [Rd WEvts]])].

(** StartUdpLayer, StartShmLayer and StartTcpLayer, ecal_writer.cpp 791-867; the constructor of the tcp
    writer, tcp/ecal_writer_tcp.cpp 40-74. *)
Definition w_start (l : lay) : stm :=
  all [Rd (WWrite l); Opt (all [Wr (WWrite l); Rd WMeta;
    match l with LyTcp => all [X KTExec [Rd TExec; Opt (Wr TExec)]; Rd TExec] | _ => Skip end;
    Wr (WPtr l); w_register])].

(** CDataWriter::ApplySubscription 433-504 and RemoveSubscription 506-529; CDataWriterSHM::ApplySubscription,
    shm/ecal_writer_shm.cpp 90-102. *)
Definition w_tell (l : lay) : stm := all [Rd (WPtr l); match l with LyShm => Opt (all [Rd SFiles; Loop f_connect]) | _ => Skip end].
Definition w_apply : stm :=
  all [w_fire_connect; Rd WMeta; each (fun l => Wr (WRead l));
       Alt (w_start LyUdp) (Alt (w_start LyShm) (Opt (w_start LyTcp)));
       X KSubs [Up WSubs]; each w_tell].
Definition w_remove : stm := all [X KSubs [Up WSubs]; each (fun l => Rd (WPtr l))].

(** CDataWriter::CheckConnections 594-603, the event is fired with the map locked. *)
Definition w_check : stm := X KSubs [Up WSubs; Opt w_fire_disconnect].

(** CDataWriter::Dump 546-568. *)
Definition w_dump : stm := all [Rd WMeta; Rd WInfo; Rd WId; Rd WClock; w_freq; Rd WMade].

(** ** The subscriber *)

(** CDataReader::FireConnectEvent and FireDisconnectEvent, ecal_reader.cpp 738-796. *)
Definition r_fire_connect : stm := all [Rd RConn; Opt (all [Wr RConn; X KREv [Rd REvts]]); X KREv [Rd REvts]].
Definition r_fire_disconnect : stm := all [Rd RConn; Opt (all [Wr RConn; X KREv [Rd REvts]])].

(** CDataReader::Read 146-185: waiting gives the lock back and takes it again. *)
Definition r_read : stm :=
  all [Rd RMade; Loop (X KRead [Rd RFlag]); X KRead [Rd RFlag; Opt (all [Rd RBuf; Wr RBuf; Rd RTime; Wr RFlag])]].

(** CUDPReaderLayer::AddSubscription and RemSubscription, udp/ecal_reader_udp.cpp 53-106. *)
Definition u_add : stm :=
  all [Rd UStart; Opt (all [Wr ULocal; Wr URecv; Wr UStart]); Rd ULocal; Opt (all [Rd UCast; Wr UCast; Rd URecv])].
Definition u_rem : stm := all [Rd ULocal; Opt (all [Rd UCast; Opt (all [Wr UCast; Rd URecv])])].
(** CTCPReaderLayer::Initialize, AddSubscription, RemSubscription and SetConnectionParameter,
    tcp/ecal_reader_tcp.cpp 130-199. *)
Definition t_add : stm := all [Rd TInit; Opt (all [Wr TInit; Wr TRun]); X KTMap [Rd TMap; Opt (all [Rd TRun; Wr TMap])]].
Definition t_rem : stm := X KTMap [Rd TMap; Opt (Wr TMap)].
Definition t_par : stm := X KTMap [Rd TMap].
(** CMemFileThreadPool::ObserveFile and Stop, io/shm/ecal_memfile_pool.cpp 343-407; CleanupPool 426-450. *)
Definition p_observe : stm := X KPool [Up PPool].
Definition p_stop : stm := X KPool [Up PPool].

(** CDataReader::StopTransportLayer 702-736 and Stop 114-144. *)
Definition r_stop : stm :=
  all [Rd RMade; Opt (all [each (fun l => Wr (RRead l)); Opt u_rem; Opt t_rem;
    X KPubs [Wr RPubs]; X KRecv [Wr RCall]; X KREv [Wr REvts]; Wr RMade; Rd RMeta; Rd GUnit; s_unregister])].

(** CSubscriber::Destroy, pubsub/ecal_subscriber.cpp 99-122; CSubGate::Unregister, ecal_subgate.cpp 84-102,
    and Stop 58-71. *)
Definition r_destroy : stm := all [X KRecv [Wr RCall]; X (KGate ESub) [Up (GMap ESub)]; Keep (KIn ESub) r_stop].
Definition r_gate_stop : stm := X (KGate ESub) [Rd (GMap ESub); r_stop; Wr (GMap ESub)].

(** CDataReader::ApplyPublication 284-304, RemovePublication 306-313, ApplyLayerParameter 315-366. *)
Definition r_apply : stm :=
  all [each (fun l => Wr (RWrite l)); r_fire_connect; X KPubs [Up RPubs]; Rd RMeta; Opt p_observe; Opt t_par].
Definition r_remove : stm := X KPubs [Up RPubs].

(** CDataReader::CheckMessageClock 798-915. *)
Definition r_clock : stm :=
  all [Rd RCnt; Opt (all [X KREv [Rd REvts]; Up RDrop]); Wr RCnt].

(** CDataReader::ApplySample 368-495, all of it under m_receive_callback_mtx. *)
Definition r_sample : stm :=
  X KRecv [Rd RMade; Rd RMeta; each (fun l => Up (RAct l)); Rd RHash;
    Opt (all [Wr RHash; Rd RIds; r_clock; Wr RClock; X KRFr [Up RFreq]; Wr RWait; Wr RSize;
      Rd RCall; Opt (X KRead [Wr RBuf; Wr RTime; Wr RFlag])])].
(** CSubGate::HasSample and ApplySample, ecal_subgate.cpp 104-210: the readers are copied under the lock of
    the gate and called without it. *)
Definition d_sample : stm := all [Sh (KGate ESub) [Rd (GMap ESub)]; r_sample].

(** CDataReader::CheckConnections 547-556; GetRegistrationSample 567-644. *)
Definition r_check : stm := X KPubs [Up RPubs; Opt r_fire_disconnect].
Definition r_getsample : stm :=
  all [Rd RMeta; Rd RAttr; Rd RSize; each (fun l => all [Rd (RRead l); Rd (RAct l)]); Rd GUnit; Rd RClock;
       X KRFr [Up RFreq]; Rd RDrop].

(** CDataReader::Dump 497-521. *)
Definition r_dump : stm := all [Rd RMeta; Rd RSize; Rd RBuf; Rd RTime; Rd RClock; X KRFr [Up RFreq]; Rd RMade].

(** ** The client *)

(** CServiceClientImpl::CheckForNewServices, ecal_service_client_impl.cpp 711-749;
    CClientGate::GetServiceAttr, ecal_clientgate.cpp 144-158. *)
Definition c_new : stm := all [Rd CName; Sh KServ [Rd GServ]; Loop (X KCMap [Rd CMap; Opt (Wr CMap)])].
Definition c_event : stm := X KCEv [Rd CEvts; Rd CName; Rd CId].
(** CheckForDisconnectedServices 751-780: the map of the connected services is used with the lock of the
    other map. *)
Definition c_gone : stm := X KCMap [Rd CMap; Opt (all [Rd CConn; Opt (all [c_event; Wr CConn])])].
(** GetRegistrationSample 637-673. *)
Definition c_sample : stm := all [Rd CId; Rd CName; Rd GUnit; X KMeth [Rd CMeth; Rd CCount]].
(** IncrementMethodCallCount 797-801. *)
Definition c_count : stm := X KMeth [Up CCount].
(** Call 192-297, CallAsync 300-392 and CallBlocking 441-595. *)
Definition c_call : stm :=
  all [Rd CMade; Opt (all [Rd CName; c_new; Rd CName; Sh KServ [Rd GServ];
    Loop (all [Rd CHost; X KCMap [Rd CMap; Opt c_count]]); Opt (X KResp [Rd CResp]); Opt c_event])].
(** Stop 97-131: the name, the id and the host are cleared without a lock. *)
Definition c_stop : stm :=
  all [Rd CMade; Opt (all [X KCMap [Wr CMap]; X KResp [Wr CResp]; X KCEv [Wr CEvts]; Wr CMade;
    Rd CName; Rd CId; Rd GUnit; s_unregister; Wr CName; Wr CId; Wr CHost])].
(** CServiceClient::Destroy, ecal_service_client.cpp 115-128; CClientGate::Unregister, ecal_clientgate.cpp
    78-98.  CClientGate::Stop 52-64 has the lock only shared. *)
Definition c_destroy : stm := all [X (KGate ECli) [Up (GMap ECli)]; Keep (KIn ECli) c_stop].
Definition c_gate_stop : stm := Sh (KGate ECli) [Rd (GMap ECli); c_stop].
(** IsConnected 395-402, RegisterService 405-427. *)
Definition c_connected : stm := all [Rd CMade; X KConn [Rd CConn]].
Definition c_registered : stm := X KConn [Rd CConn; Opt (all [c_event; Wr CConn])].

(** ** The server *)

(** CServiceServerImpl::Stop, ecal_service_server_impl.cpp 134-173. *)
Definition v_stop : stm :=
  all [Rd VMade; Opt (all [Rd VTcp; X KVMeth [Wr VMeth]; X KVEv [Wr VEvts]; Wr VMade;
    Rd VName; Rd VId; Rd GUnit; s_unregister; Wr VName; Wr VId; X KVConn [Wr VConn]])].
(** CServiceServer::Destroy, ecal_service_server.cpp 93-106; CServiceGate::Unregister and Stop,
    ecal_servicegate.cpp 49-95. *)
Definition v_destroy : stm := all [X (KGate ESrv) [Up (GMap ESrv)]; Keep (KIn ESrv) v_stop].
Definition v_gate_stop : stm := Sh (KGate ESrv) [Rd (GMap ESrv); v_stop].
(** RequestCallback 400-480, EventCallback 482-543, on the threads of the tcp server. *)
Definition v_request : stm := all [Rd VName; Rd VId; Opt (X KVMeth [Rd VMeth; Opt (Wr VMeth)])].
Definition v_event : stm := all [X KVConn [Rd VConn; Rd VTcp; Opt (Wr VConn)]; Rd VName; Rd VId; Opt (X KVEv [Rd VEvts; Rd VName])].
(** GetRegistrationSample 310-354. *)
Definition v_sample : stm := all [Rd VTcp; Rd VId; Rd VName; Rd GUnit; X KVMeth [Rd VMeth]].

(** ** Registration, descriptions, monitoring, logging *)

(** CSampleApplier::ApplySample, ecal_registration_sample_applier.cpp 43-60 with AcceptRegistrationSample
    84-117: the loopback flag is read before the lock is taken; one thread at a time is in the callbacks. *)
Definition a_apply (a : list stm) : stm := all [Rd ALoop; Opt (X KAppl (Rd ACall :: a))].

(** CLog::Log, logging/ecal_log_impl.cpp 194-279; the overload that takes the level from the object 281-284;
    GetLogging 286-310; ApplySample 317-330; Stop 168-180; SetLogLevel and GetLogLevel 182-192. *)
Definition l_log : stm := X KLog [Rd LMade; Rd LMask; Opt (all [Rd LFile; Rd LSend; Wr LBuf; Rd LBuf])].
Definition l_plain : stm := all [Rd LLev; l_log].
Definition l_stop : stm := X KLog [Wr LSend; Rd LFile; Wr LFile; Wr LMade].

(** CMonitoringImpl::SetFilterState, monitoring/ecal_monitoring_impl.cpp 91-118, with the filters' texts set
    without a lock 81-89; what a topic sample does 204-292; GetMonitoring 610-756. *)
Definition m_filter : stm := all [X KExcl [Rd MText; Wr MExcl]; X KIncl [Rd MText; Wr MIncl]].
Definition m_apply (e : ent) : stm := all [X KExcl [Rd MExcl]; X KIncl [Rd MIncl]; X (KMon e) [Up (MMap e)]].
Definition m_get (e : ent) : stm := X (KMon e) [Up (MMap e)].

(** ** Who calls what

    Names of the calls; [e] stands for the entity, so [UAttr EPub] is SetAttribute or ClearAttribute of a
    publisher. *)
Inductive cname : Type :=
| USend | UInfo | UGetInfo | UDump (e : ent) | UAttr (e : ent) | UEvent (e : ent) | UCount (e : ent) | UDestroy (e : ent) | UGateStop (e : ent)
| URead | UCallback | USetId
| UCall | UHost | UResp | UConnected
| UMethod | UIsConn
| XLoop | XReg | XCustom | XTopics (e : ent) | XMonitor (e : ent) | XFilterText | XFilter | XLog | XLogLevel | XLogPlain | XLogGet | XLogStop
| XUnit | XState | XSubNew | XSubEnd | XStop
| NSub | NUnsub | NPub | NUnpub | NService | NDesc (e : ent) | NMon (e : ent) | NUser
| SProc | SPubs | SSubs | SSrvs | SClis | SSend | STrig
| DData | TRequest | TEvent | TResp | LRecvLog | PClean.
#[export] Instance cname_dec : EqDec cname. Proof. intros a b; decide equality; apply eq_dec. Defined.

(** A role: a kind of thread, whether there can be several of it, and its calls. *)
Record role : Type := { ro_many : bool; ro_calls : list (cname * stm) }.

Definition found (e : ent) (a : list stm) : stm := Sh (KGate e) [Rd (GMap e); Loop (Sh (KIn e) a)].

(** The thread of the user that has the publisher.
    SetDataTypeInformation 363-373, GetDataTypeInformation (ecal_writer.h), SetAttribute 375-385,
    ClearAttribute 387-397, AddEventCallback 399-414, RemEventCallback 416-431, GetSubscriberCount ecal_writer.h 119-123. *)
Definition ro_pub : role := {| ro_many := false; ro_calls := [
  (USend, w_send); (UInfo, Wr WInfo); (UGetInfo, Rd WInfo); (UDump EPub, w_dump); (UAttr EPub, Up WAttr);
  (UEvent EPub, all [Rd WMade; Opt (X KWEv [Up WEvts])]); (UCount EPub, X KSubs [Rd WSubs]);
  (UDestroy EPub, w_destroy); (UGateStop EPub, w_gate_stop)] |}.

(** The thread of the user that has the subscriber.
    AddReceiveCallback and RemReceiveCallback 187-219, events 221-253, SetAttribute and ClearAttribute 255-277,
    SetID 279-282, GetPublisherCount ecal_reader.h 112-116. *)
Definition ro_sub : role := {| ro_many := false; ro_calls := [
  (URead, r_read); (UCallback, all [Rd RMade; Opt (X KRecv [Wr RCall])]); (USetId, Wr RIds); (UDump ESub, r_dump);
  (UAttr ESub, Up RAttr); (UEvent ESub, all [Rd RMade; Opt (X KREv [Up REvts])]); (UCount ESub, X KPubs [Rd RPubs]);
  (UDestroy ESub, r_destroy); (UGateStop ESub, r_gate_stop)] |}.

(** The thread of the user that has the client: SetHostName 133-138, callbacks 141-202. *)
Definition ro_cli : role := {| ro_many := false; ro_calls := [
  (UCall, c_call); (UHost, all [Rd CMade; Opt (Wr CHost)]); (UResp, all [Rd CMade; Opt (X KResp [Wr CResp])]);
  (UEvent ECli, all [Rd CMade; Opt (X KCEv [Up CEvts])]); (UConnected, c_connected);
  (UDestroy ECli, c_destroy); (UGateStop ECli, c_gate_stop)] |}.

(** The thread of the user that has the server: AddDescription 175-201, AddMethodCallback 204-236,
    RemMethodCallback 239-250, events 253-286, IsConnected 289-296. *)
Definition ro_srv : role := {| ro_many := false; ro_calls := [
  (UMethod, X KVMeth [Up VMeth]); (UEvent ESrv, all [Rd VMade; Opt (X KVEv [Up VEvts])]); (UIsConn, all [Rd VMade; Rd VTcp]);
  (UDestroy ESrv, v_destroy); (UGateStop ESrv, v_gate_stop)] |}.

(** Any thread of the user.
    Util::EnableLoopback (ecal_util.cpp 163-168, ecal_registration_sample_applier.cpp 38-41);
    Process::AddRegistrationCallback and RemRegistrationCallback (ecal_process.cpp 302-318,
    ecal_registration_sample_applier_user.cpp 27-73); SetCustomApplySampleCallback and
    RemCustomApplySampleCallback (ecal_registration_sample_applier.cpp 119-133); Util::GetTopics and its like
    (ecal_descgate.cpp 75-105); Monitoring; Logging; SetUnitName (ecal.cpp 176-185); Process::SetState
    (ecal_process.cpp 292-300); creating and destroying subscribers other than the one above;
    CRegistrationProvider::Stop (ecal_registration_provider.cpp 91-108), CCallbackThread::stop
    (util/ecal_thread.h 71-85). *)
Definition ro_any : role := {| ro_many := true; ro_calls := [
  (XLoop, Wr ALoop); (XReg, Wr AUser); (XCustom, X KAppl [Up ACall]);
  (XTopics EPub, X (KDesc EPub) [Up (DMap EPub)]); (XTopics ESub, X (KDesc ESub) [Up (DMap ESub)]);
  (XTopics ESrv, X (KDesc ESrv) [Up (DMap ESrv)]); (XTopics ECli, X (KDesc ECli) [Up (DMap ECli)]);
  (XMonitor EPub, m_get EPub); (XMonitor ESub, m_get ESub); (XMonitor ESrv, m_get ESrv); (XMonitor ECli, m_get ECli); (XMonitor EPrc, m_get EPrc);
  (XFilterText, Wr MText); (XFilter, m_filter);
  (XLog, l_log); (XLogLevel, X KLog [Wr LLev]); (XLogPlain, l_plain); (XLogGet, X KLog [Up LList]);
  (XUnit, Wr GUnit); (XState, Wr GState); (XSubNew, all [Opt u_add; Opt t_add]); (XSubEnd, all [Opt u_rem; Opt t_rem])] |}.

(** The thread that ends the library: CRegistrationProvider::Stop, ecal_registration_provider.cpp 91-108, with
    CCallbackThread::stop, util/ecal_thread.h 71-85; CLog::Stop; CMemFileThreadPool::Stop. *)
Definition ro_end : role := {| ro_many := false; ro_calls := [
  (XStop, all [Rd PMade; Opt (all [X KList [Up PList]; s_trigger; X KTrig [Wr PTrig]; Keep KRun (Wr PSend); Wr PMade])]);
  (XLogStop, l_stop); (PClean, p_stop)] |}.

(** The threads that receive registration: CPubGate::ApplySubRegistration, ecal_pubgate.cpp 113-172, and
    ApplySubUnregistration 174-197; CSubGate::ApplyPubRegistration, ecal_subgate.cpp 212-274, and
    ApplyPubUnregistration 276-299; CClientGate::ApplyServiceRegistration, ecal_clientgate.cpp 100-142;
    CDescGate::ApplySample, ecal_descgate.cpp 107-241; CMonitoringImpl::ApplySample,
    ecal_monitoring_impl.cpp 120-202; CSampleApplierUser::ApplySample,
    ecal_registration_sample_applier_user.cpp 75-118. *)
Definition ro_recv : role := {| ro_many := true; ro_calls := [
  (NSub, a_apply [found EPub [w_apply]]); (NUnsub, a_apply [found EPub [w_remove]]);
  (NPub, a_apply [found ESub [r_apply]]); (NUnpub, a_apply [found ESub [r_remove]]);
  (NService, a_apply [X KServ [Up GServ]; found ECli [Rd CName; Opt c_registered]]);
  (NDesc EPub, a_apply [X (KDesc EPub) [Up (DMap EPub)]]); (NDesc ESub, a_apply [X (KDesc ESub) [Up (DMap ESub)]]);
  (NDesc ESrv, a_apply [X (KDesc ESrv) [Up (DMap ESrv)]]); (NDesc ECli, a_apply [X (KDesc ECli) [Up (DMap ECli)]]);
  (NMon EPub, a_apply [m_apply EPub]); (NMon ESub, a_apply [m_apply ESub]); (NMon ESrv, a_apply [m_apply ESrv]);
  (NMon ECli, a_apply [m_apply ECli]); (NMon EPrc, a_apply [m_apply EPrc]);
  (NUser, a_apply [Rd AUser])] |}.

(** The thread that sends registration, CRegistrationProvider::RegisterSendThread,
    ecal_registration_provider.cpp 141-179: GetProcessRegisterSample, ecal_process_registration.cpp 33-90;
    GetRegistrations of the gates, ecal_subgate.cpp 301-311, ecal_pubgate.cpp 199-209, ecal_servicegate.cpp
    97-107, ecal_clientgate.cpp 160-170; GetRegistration of the writer 605-611, the reader, the server and the
    client 430-439.  CCallbackThread::callbackFunction, util/ecal_thread.h 116-144. *)
Definition ro_send : role := {| ro_many := false; ro_calls := [
  (SProc, X KRun [Rd GUnit; Rd GState]);
  (SSubs, X KRun [found ESub [r_check; r_getsample]]);
  (SPubs, X KRun [found EPub [w_check; w_sample]]);
  (SSrvs, X KRun [found ESrv [v_sample]]);
  (SClis, X KRun [found ECli [c_new; c_gone; c_sample]]);
  (SSend, X KRun [Rd PSend; X KList [Rd PSend; Rd PList; Wr PList]]);
  (STrig, X KTrig [Up PTrig])] |}.

(** The threads that receive payload over udp, tcp and shared memory; those of the tcp servers and clients
    of services; the one that receives log messages, ecal_log_impl.cpp 312-330; the one that cleans the pool
    of memory files, ecal_memfile_pool.cpp 409-450. *)
Definition ro_data : role := {| ro_many := true; ro_calls := [(DData, d_sample)] |}.
Definition ro_tcp : role := {| ro_many := true; ro_calls := [(TRequest, v_request); (TEvent, v_event); (TResp, X KResp [Rd CResp])] |}.
Definition ro_log : role := {| ro_many := false; ro_calls := [(LRecvLog, X KLog [Up LList])] |}.
Definition ro_clean : role := {| ro_many := false; ro_calls := [(PClean, X KPool [Up PPool])] |}.

Definition ecal : list role := [ro_pub; ro_sub; ro_cli; ro_srv; ro_any; ro_end; ro_recv; ro_send; ro_data; ro_tcp; ro_log; ro_clean].

(** ** Threads that run *)

(** What a thread still has to do: a statement, or giving a lock back. *)
Inductive item : Type := Do (s : stm) | Give (l : lk).

(** A thread: its role, the locks it holds, with [true] those held shared, and what it has to do. *)
Record thr : Type := { th_role : nat; th_held : list (lk * bool); th_todo : list item }.

Definition idle (r : nat) : thr := {| th_role := r; th_held := []; th_todo := [] |}.

(** A lock can be taken exclusively if nobody holds it, and shared if nobody holds it exclusively. *)
Definition clash (l : lk) (sh : bool) (h : lk * bool) : bool := eqb (fst h) l && negb (sh && snd h).
Definition free (l : lk) (sh : bool) (ts : list thr) : bool :=
  forallb (fun t => forallb (fun h => negb (clash l sh h)) (th_held t)) ts.

Fixpoint give (l : lk) (h : list (lk * bool)) : list (lk * bool) :=
  match h with
  | [] => []
  | x :: r => if eqb (fst x) l then r else x :: give l r
  end.

(** The choices of the schedule: which call an idle thread begins, which side of a branch is taken. *)
Inductive choice : Type := Begin (c : cname) | Go | Other.

Fixpoint call_of (c : cname) (l : list (cname * stm)) : option stm :=
  match l with
  | [] => None
  | (d, s) :: r => if eqb d c then Some s else call_of c r
  end.

Definition todo (t : thr) (l : list item) : thr := {| th_role := th_role t; th_held := th_held t; th_todo := l |}.
Definition took (t : thr) (l : lk) (sh : bool) (r : list item) : thr :=
  {| th_role := th_role t; th_held := (l, sh) :: th_held t; th_todo := r |}.
Definition gave (t : thr) (l : lk) (r : list item) : thr :=
  {| th_role := th_role t; th_held := give l (th_held t); th_todo := r |}.

(** One step of a thread; [ts] are all threads. *)
Definition stept (sys : list role) (ts : list thr) (t : thr) (c : choice) : option thr :=
  match th_todo t, c with
  | [], Begin n => match nth_error sys (th_role t) with
                   | Some r => option_map (fun s => todo t [Do s]) (call_of n (ro_calls r))
                   | None => None
                   end
  | Do Skip :: r, Go => Some (todo t r)
  | Do (Rd _) :: r, Go => Some (todo t r)
  | Do (Wr _) :: r, Go => Some (todo t r)
  | Do (Seq a b) :: r, Go => Some (todo t (Do a :: Do b :: r))
  | Do (Alt a _) :: r, Go => Some (todo t (Do a :: r))
  | Do (Alt _ b) :: r, Other => Some (todo t (Do b :: r))
  | Do (Loop a) :: r, Go => Some (todo t (Do a :: Do (Loop a) :: r))
  | Do (Loop _) :: r, Other => Some (todo t r)
  | Do (Hold l sh a) :: r, Go => if free l sh ts then Some (took t l sh (Do a :: Give l :: r)) else None
  | Do (Keep l a) :: r, Go => if free l false ts then Some (took t l false (Do a :: r)) else None
  | Give l :: r, Go => Some (gave t l r)
  | _, _ => None
  end.

Fixpoint setn {A} (n : nat) (x : A) (l : list A) : list A :=
  match l, n with
  | [], _ => []
  | _ :: r, 0 => x :: r
  | y :: r, S m => y :: setn m x r
  end.

Definition step (sys : list role) (ts : list thr) (i : nat) (c : choice) : option (list thr) :=
  match nth_error ts i with
  | Some t => option_map (fun t' => setn i t' ts) (stept sys ts t c)
  | None => None
  end.

Fixpoint runs (sys : list role) (ts : list thr) (sched : list (nat * choice)) : option (list thr) :=
  match sched with
  | [] => Some ts
  | (i, c) :: r => match step sys ts i c with Some ts' => runs sys ts' r | None => None end
  end.
