(** What a monitor sees: the registrations of processes, publishers, subscribers, servers and
    clients travel as UDP datagrams and fill the tables of the monitoring of other processes.
    ecal/core/src/registration/ecal_process_registration.cpp 33-110, ecal_registration_provider.cpp
    91-179, readwrite/ecal_writer.cpp 570-729, ecal_reader.cpp 523-664,
    service/ecal_service_server_impl.cpp 310-398, ecal_service_client_impl.cpp 637-709;
    monitoring/ecal_monitoring_impl.cpp.

    The parts are those of the other areas: serialization (SerModel), datagrams (UdpModel), the
    sample applier (RegModel), the tables of the monitoring (MonModel).  The network keeps every
    datagram ever sent; any of them may be handed to any process at any time, once, several times
    or never, in any order.

    Simplified: an operation runs to its end before the next one of the same process starts; what
    an entity tells about itself (layers, counters, methods, connections) is changed by the
    environment; the filters stay as configured (changing them is the subject of C46); every
    process has its monitoring, whether or not anybody looks. *)
From Verif Require Import Base Sample ExpMapModel RegModel PbModel SerModel UdpModel DscModel.
From Verif Require Import MonModel.
From Verif Require NetModel SdsModel.

(** ** Entities and processes *)
(** CDataWriter, CDataReader, CServiceServerImpl, CServiceClientImpl: what each tells about itself. *)
Inductive ybody := YPub (t : topic) | YSub (t : topic) | YSrv (v : service) | YCli (v : client).
(** m_topic_name or m_service_name, m_topic_id or m_service_id. *)
Record yobj := YObj { yo_name : text; yo_id : text; yo_body : ybody }.
(** Process::GetHostName, GetHostGroupName, GetProcessID, GetProcessName; network mode, loopback;
    the protocols of services switched on; Config::GetMonitoringTimeoutMs and the filters. *)
Record ycfg := YCfg {
  yc_host : text; yc_group : text; yc_pid : Z; yc_pname : text; yc_network : bool; yc_loopback : bool;
  yc_v0 : bool; yc_v1 : bool; yc_timeout : Z; yc_excl : text; yc_incl : text }.
(** [yp_self]: unit name, parameters, state, time synchronisation and components of the process. *)
Record yproc := YProc {
  yp_cfg : ycfg; yp_self : process; yp_objs : list (nat * yobj); yp_applied : list sample; yp_rx : rx_state; yp_mon : mon }.
Record ynet := YNet { yn_procs : list (nat * yproc); yn_sent : list sample }.
Definition ynet0 : ynet := YNet [] [].

(** ** What they tell *)
(** GetProcessRegisterSample, ecal_process_registration.cpp 33-94. *)
Definition y_proc_reg (c : ycfg) (r : process) : sample :=
  Sample [] (yc_pid c) (yc_host c) bct_reg_process [] []
    (Process 0 (yc_group c) (yc_pname c) (pr_uname r) (pr_pparam r) (pr_severity r) (pr_severity_level r) (pr_info r)
       (pr_tsync_state r) (pr_tsync_mod r) (pr_comp_state r) (pr_comp_info r) (pr_version r)) service0 client0 topic0.
(** GetProcessUnregisterSample 96-110. *)
Definition y_proc_unreg (c : ycfg) (r : process) : sample :=
  Sample [] (yc_pid c) (yc_host c) bct_unreg_process [] []
    (Process 0 [] (yc_pname c) (pr_uname r) [] 0 0 [] 0 [] 0 [] []) service0 client0 topic0.
Definition y_dcfg (c : ycfg) : SdsModel.dcfg :=
  SdsModel.DCfg (yc_host c) (yc_group c) (yc_pid c) (yc_network c) (yc_loopback c) (yc_v0 c) (yc_v1 c).
(** GetRegistrationSample: ecal_writer.cpp 613-709, ecal_reader.cpp 567-644,
    ecal_service_server_impl.cpp 310-354 ([SdsModel.sx_reg]), ecal_service_client_impl.cpp 637-673. *)
Definition y_reg (c : ycfg) (r : process) (o : yobj) : sample :=
  match yo_body o with
  | YPub t => Sample (yo_id o) (yc_pid c) (yc_host c) bct_reg_publisher [] [] process0 service0 client0
      (Topic 0 (yc_group c) (yc_pname c) (pr_uname r) (yo_name o) [] (tp_dtype t) (tp_layers t) (tp_tsize t)
         (tp_conn_loc t) (tp_conn_ext t) 0 (tp_did t) (tp_dclock t) (tp_dfreq t) (tp_attr t))
  | YSub t => Sample (yo_id o) (yc_pid c) (yc_host c) bct_reg_subscriber [] [] process0 service0 client0
      (Topic 0 (yc_group c) (yc_pname c) (pr_uname r) (yo_name o) [] (tp_dtype t) (tp_layers t) (tp_tsize t)
         0 0 (tp_drops t) 0 (tp_dclock t) (tp_dfreq t) (tp_attr t))
  | YSrv v => SdsModel.sx_reg (y_dcfg c) (SdsModel.DSrv (yo_name o) (yo_id o)
      (Service 0 (yc_pname c) (pr_uname r) [] (sv_methods v) (sv_version v) (sv_port0 v) (sv_port1 v)))
  | YCli v => Sample (yo_id o) (yc_pid c) (yc_host c) bct_reg_client [] [] process0 service0
      (Client 0 (yc_pname c) (pr_uname r) (yo_name o) (cl_methods v) (cl_version v)) topic0
  end.
(** GetUnregistrationSample: ecal_writer.cpp 711-729, ecal_reader.cpp 646-664,
    ecal_service_server_impl.cpp 356-374, ecal_service_client_impl.cpp 675-692. *)
Definition y_unreg (c : ycfg) (r : process) (o : yobj) : sample :=
  match yo_body o with
  | YPub t => Sample (yo_id o) (yc_pid c) (yc_host c) bct_unreg_publisher [] [] process0 service0 client0
      (Topic 0 (yc_group c) (yc_pname c) (pr_uname r) (yo_name o) [] dt0 [] 0 0 0 0 0 0 0 [])
  | YSub t => Sample (yo_id o) (yc_pid c) (yc_host c) bct_unreg_subscriber [] [] process0 service0 client0
      (Topic 0 (yc_group c) (yc_pname c) (pr_uname r) (yo_name o) [] dt0 [] 0 0 0 0 0 0 0 [])
  | YSrv v => SdsModel.sx_unreg (y_dcfg c) (SdsModel.DSrv (yo_name o) (yo_id o)
      (Service 0 (yc_pname c) (pr_uname r) [] (sv_methods v) (sv_version v) (sv_port0 v) (sv_port1 v)))
  | YCli v => Sample (yo_id o) (yc_pid c) (yc_host c) bct_unreg_client [] [] process0 service0
      (Client 0 (yc_pname c) (pr_uname r) (yo_name o) [] (cl_version v)) topic0
  end.
(** The gates are asked in the order of RegisterSendThread, ecal_registration_provider.cpp 149-167. *)
Definition y_rank (o : yobj) : nat := match yo_body o with YSub _ => 0 | YPub _ => 1 | YSrv _ => 2 | YCli _ => 3 end.
Definition y_cycle (q : yproc) : list sample :=
  y_proc_reg (yp_cfg q) (yp_self q) ::
  flat_map (fun n => map (fun xo => y_reg (yp_cfg q) (yp_self q) (snd xo)) (filter (fun xo => Nat.eqb (y_rank (snd xo)) n) (yp_objs q))) [0; 1; 2; 3].

Section Eye.
Variable compile : text -> option (text -> bool).

(** ** Arrival of a datagram *)
Definition y_applier (c : ycfg) : applier := ap_new (yc_network c) (yc_loopback c) (yc_group c) (yc_pid c).
Definition with_mon (q : yproc) (m : mon) : yproc := YProc (yp_cfg q) (yp_self q) (yp_objs q) (yp_applied q) (yp_rx q) m.
(** udp/ecal_registration_receiver_udp.cpp 51-55; the callback of the monitoring, ecal_monitoring_impl.cpp
    54-72 and 120-195. *)
Definition y_sample (now : Z) (bs : text) (q : yproc) : dres yproc :=
  match de_sample bs with
  | Ok m => if fst (ap_apply (y_applier (yp_cfg q)) m) then dmap (with_mon q) (mon_apply compile now m (yp_mon q)) else DOk q
  | Fail => DOk q
  | Fault => DUB
  end.
Definition y_datagram (now : Z) (bs : text) (q : yproc) : dres yproc :=
  let (rx, out) := rx_step (fun _ => true) (RxArrive bs) (yp_rx q) in
  let q1 := YProc (yp_cfg q) (yp_self q) (yp_objs q) (yp_applied q) rx (yp_mon q) in
  match rx with
  | Undefined => DUB
  | _ => match out with [] => DOk q1 | b :: _ => y_sample now b q1 end
  end.

(** ** Operations *)
Inductive yop :=
| YStart (p : nat) (c : ycfg) (r : process)    (* eCAL::Initialize *)
| YState (p : nat) (r : process)               (* the state of the process changes *)
| YMake (p x : nat) (o : yobj)                 (* an entity is created *)
| YTouch (p x : nat) (b : ybody)               (* what it tells about itself changes *)
| YRegister (p x : nat)                        (* Register of an entity: RegisterSample 111-122 *)
| YEnd (p x : nat)                             (* an entity is destroyed: UnregisterSample 125-133 *)
| YStop (p : nat)                              (* CRegistrationProvider::Stop 91-108 *)
| YKill (p : nat)                              (* the process ends, in whatever way *)
| YCollect (p : nat)                           (* RegisterSendThread 146-170 *)
| YFlush (p : nat)                             (* RegisterSendThread 172-177 *)
| YHear (p k : nat) (now : Z)                  (* the k-th datagram arrives *)
| YLook (p : nat) (ents now : Z).              (* Monitoring::GetMonitoring *)
Definition y_on (p : nat) (s : ynet) (f : yproc -> dres (yproc * list sample)) : dres ynet :=
  match aget p (yn_procs s) with
  | None => DOk s
  | Some q => dmap (fun r => YNet (aset p (fst r) (yn_procs s)) (yn_sent s ++ snd r)) (f q)
  end.
Definition with_objs (q : yproc) l : yproc := YProc (yp_cfg q) (yp_self q) l (yp_applied q) (yp_rx q) (yp_mon q).
Definition with_applied (q : yproc) l : yproc := YProc (yp_cfg q) (yp_self q) (yp_objs q) l (yp_rx q) (yp_mon q).
(** A body of the same kind. *)
Definition y_same_kind (a b : ybody) : bool :=
  match a, b with YPub _, YPub _ | YSub _, YSub _ | YSrv _, YSrv _ | YCli _, YCli _ => true | _, _ => false end.
Definition yn_step (o : yop) (s : ynet) : dres ynet :=
  match o with
  | YStart p c r =>
      match aget p (yn_procs s) with
      | Some _ => DOk s
      | None => DOk (YNet (aset p (YProc c r [] [] Listening (mon_create (yc_timeout c) (yc_excl c) (yc_incl c))) (yn_procs s)) (yn_sent s))
      end
  | YState p r => y_on p s (fun q => DOk (YProc (yp_cfg q) r (yp_objs q) (yp_applied q) (yp_rx q) (yp_mon q), []))
  | YMake p x o => y_on p s (fun q => match aget x (yp_objs q) with Some _ => DOk (q, []) | None => DOk (with_objs q (aset x o (yp_objs q)), []) end)
  | YTouch p x b =>
      y_on p s (fun q =>
        match aget x (yp_objs q) with
        | Some o => if y_same_kind (yo_body o) b then DOk (with_objs q (aset x (YObj (yo_name o) (yo_id o) b) (yp_objs q)), []) else DOk (q, [])
        | None => DOk (q, [])
        end)
  | YRegister p x =>
      y_on p s (fun q =>
        match aget x (yp_objs q) with
        | Some o => DOk (with_applied q (yp_applied q ++ [y_reg (yp_cfg q) (yp_self q) o]), [])
        | None => DOk (q, [])
        end)
  | YEnd p x =>
      y_on p s (fun q =>
        match aget x (yp_objs q) with
        | Some o => DOk (with_applied (with_objs q (adel x (yp_objs q))) (yp_applied q ++ [y_unreg (yp_cfg q) (yp_self q) o]), [])
        | None => DOk (q, [])
        end)
  | YStop p => y_on p s (fun q => DOk (with_applied q (yp_applied q ++ [y_proc_unreg (yp_cfg q) (yp_self q)]), []))
  | YKill p => DOk (YNet (adel p (yn_procs s)) (yn_sent s))
  | YCollect p => y_on p s (fun q => DOk (q, y_cycle q))
  | YFlush p => y_on p s (fun q => DOk (with_applied q [], yp_applied q))
  | YHear p k now =>
      match nth_error (yn_sent s) k with
      | None => DOk s
      | Some m => y_on p s (fun q => dmap (fun q' => (q', [])) (y_datagram now (datagram NetModel.reg_sample (ser_sample m)) q))
      end
  | YLook p ents now => y_on p s (fun q => DOk (with_mon q (fst (mon_get now ents (yp_mon q))), []))
  end.
Fixpoint yn_run (l : list yop) (s : ynet) : dres ynet :=
  match l with [] => DOk s | o :: l' => dbind (yn_step o s) (yn_run l') end.
(** GetMonitoring in process [p]. *)
Definition y_view (s : ynet) (p : nat) (now ents : Z) : option monitoring :=
  match aget p (yn_procs s) with Some q => Some (snd (mon_get now ents (yp_mon q))) | None => None end.
End Eye.
