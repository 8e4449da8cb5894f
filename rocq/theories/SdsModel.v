(** Discovery of services: the registrations of servers travel as UDP datagrams, are kept in
    the table of the client gate, and make clients of other processes open sessions.
    ecal/core/src/service/ecal_service_server_impl.cpp 63-173, 304-398, ecal_servicegate.cpp
    63-107, ecal_clientgate.cpp 66-170, ecal_service_client_impl.cpp 69-131, 395-439, 711-780;
    registration/ecal_registration_sample_applier_gates.cpp 32-75, ecal_registration_provider.cpp
    124-178.

    The parts are those of the other areas: serialization (SerModel), datagrams (UdpModel), the
    sample applier (RegModel), the expiring table (ExpMapModel).  The network keeps every datagram
    ever sent; any of them may be handed to any process at any time, once, several times or never,
    in any order.

    Simplified: an operation runs to its end before the next one of the same process starts;
    registrations of processes, publishers, subscribers and clients are left out (the client gate
    ignores them); the events of a client are left out (C33); the client manager is not stopped
    while the process runs; what a session does is left to the environment, which may let it fail
    at any time. *)
From Verif Require Import Base Sample ExpMapModel RegModel PbModel SerModel UdpModel.
From Verif Require MonModel NetModel.

(** ** Servers, clients, processes *)
(** CServiceServerImpl: m_service_name, m_service_id, and what else it tells about itself: names of
    the process, methods, version, and the ports of its two TCP servers (0: not listening). *)
Record dsrv := DSrv { sx_name : text; sx_id : text; sx_rest : service }.
(** SServiceAttr, ecal/core/include/ecal/ecal_callback.h 75-89; the member key is [ca_key]. *)
Record dattr := DAttr {
  ca_name : text; ca_id : text; ca_pid : Z; ca_host : text; ca_pname : text; ca_uname : text;
  ca_version : Z; ca_port0 : Z; ca_port1 : Z }.
(** A ClientSession: protocol version, the endpoints it tries, whether its state is FAILED. *)
Record dses := DSes { ss_proto : Z; ss_ends : list (text * Z); ss_failed : bool }.
(** CServiceClientImpl: m_service_name, m_host_name, m_connected_services_map, m_client_map. *)
Record dcli := DCli { cx_name : text; cx_host : text; cx_conn : list (text * dattr); cx_ses : list (text * dses) }.
(** Process::GetHostName, GetHostGroupName, GetProcessID; network mode, loopback;
    Config::IsServiceProtocolV0Enabled, IsServiceProtocolV1Enabled. *)
Record dcfg := DCfg { pc_host : text; pc_group : text; pc_pid : Z; pc_network : bool; pc_loopback : bool; pc_v0 : bool; pc_v1 : bool }.
(** [px_reg] is CClientGate::m_service_register_map. *)
Record dproc := DProc {
  px_cfg : dcfg; px_rx : rx_state; px_srv : list (nat * dsrv); px_cli : list (nat * dcli);
  px_reg : emap text dattr; px_applied : list sample }.
Record dnet := DNet { dn_procs : list (nat * dproc); dn_sent : list sample }.
Definition dnet0 : dnet := DNet [] [].

(** The time after which the table forgets, in milliseconds: it is made by the default constructor,
    ecal_clientgate.h 67-69 and util/ecal_expmap.h 182. *)
Definition forget_after : Z := 5000.
Definition px_new (c : dcfg) : dproc := DProc c Listening [] [] (em_new forget_after) [].

(** ** What a server tells *)
Definition sx_port0 (c : dcfg) (e : dsrv) : Z := if pc_v0 c then sv_port0 (sx_rest e) else 0.
Definition sx_port1 (c : dcfg) (e : dsrv) : Z := if pc_v1 c then sv_port1 (sx_rest e) else 0.
(** GetRegistrationSample, ecal_service_server_impl.cpp 310-354. *)
Definition sx_reg (c : dcfg) (e : dsrv) : sample :=
  if (pc_v0 c && (sx_port0 c e =? 0)%Z)%bool then Sample [] 0 [] bct_reg_service [] [] process0 service0 client0 topic0
  else if (pc_v1 c && (sx_port1 c e =? 0)%Z)%bool then Sample [] 0 [] bct_reg_service [] [] process0 service0 client0 topic0
  else
    let r := sx_rest e in
    Sample (sx_id e) (pc_pid c) (pc_host c) bct_reg_service [] [] process0
      (Service 0 (sv_pname r) (sv_uname r) (sx_name e) (sv_methods r) (sv_version r) (sx_port0 c e) (sx_port1 c e)) client0 topic0.
(** GetUnregistrationSample 356-374. *)
Definition sx_unreg (c : dcfg) (e : dsrv) : sample :=
  let r := sx_rest e in
  Sample (sx_id e) (pc_pid c) (pc_host c) bct_unreg_service [] [] process0
    (Service 0 (sv_pname r) (sv_uname r) (sx_name e) [] (sv_version r) 0 0) client0 topic0.

(** ** The client gate *)
(** ecal_clientgate.cpp 102-115. *)
Definition u16 (z : Z) : Z := z mod 2 ^ 16.
Definition attr_of (m : sample) : dattr :=
  let v := sm_service m in
  DAttr (sv_sname v) (sm_entity m) (sm_pid m) (sm_host m) (sv_pname v) (sv_uname v) (sv_version v) (u16 (sv_port0 v)) (u16 (sv_port1 v)).
Definition attr0 : dattr := DAttr [] [] 0 [] [] [] 0 0 0.
(** Line 118. *)
Definition ca_key (a : dattr) : text :=
  ca_name a ++ str ":" ++ ca_id a ++ str "@" ++ MonModel.int_text (ca_pid a) ++ str "@" ++ ca_host a.
(** RegisterService, ecal_service_client_impl.cpp 405-427. *)
Definition cx_hear (k : text) (a : dattr) (c : dcli) : dcli :=
  match aget k (cx_conn c) with
  | Some _ => c
  | None => DCli (cx_name c) (cx_host c) (aset k a (cx_conn c)) (cx_ses c)
  end.
(** ApplyServiceRegistration 100-142; None: the table is damaged. *)
Definition px_apply (now : Z) (m : sample) (p : dproc) : option dproc :=
  let a := attr_of m in
  match em_index attr0 now (ca_key a) (fun _ => a) (px_reg p) with
  | None => None
  | Some r =>
      Some (DProc (px_cfg p) (px_rx p) (px_srv p)
              (map (fun xc => (fst xc, if eqb (cx_name (snd xc)) (ca_name a) then cx_hear (ca_key a) a (snd xc) else snd xc)) (px_cli p))
              (fst (em_erase_expired now r)) (px_applied p))
  end.
(** GetServiceAttr 144-158. *)
Definition named (n : text) (r : emap text dattr) : list dattr :=
  filter (fun a => eqb (ca_name a) n) (map snd (em_contents r)).

(** ** A client *)
(** The session made for a service, ecal_service_client_impl.cpp 735-744 (uint8_t: 744). *)
Definition dial (a : dattr) : dses :=
  let v := if (ca_port1 a =? 0)%Z then 0%Z else ca_version a in
  let port := if (v =? 0)%Z then ca_port0 a else ca_port1 a in
  DSes (v mod 256) [(ca_host a, port); (ca_host a ++ str ".local", port)] false.
(** CheckForNewServices 711-749. *)
Definition cx_refresh (r : emap text dattr) (c : dcli) : dcli :=
  DCli (cx_name c) (cx_host c) (cx_conn c)
    (fold_left (fun l a => match aget (ca_key a) l with Some _ => l | None => aset (ca_key a) (dial a) l end) (named (cx_name c) r) (cx_ses c)).
(** CheckForDisconnectedServices 751-780. *)
Definition cx_check (c : dcli) : dcli :=
  DCli (cx_name c) (cx_host c)
    (fold_left (fun l ks => if ss_failed (snd ks) then adel (fst ks) l else l) (cx_ses c) (cx_conn c)) (cx_ses c).
(** IsConnected 395-402. *)
Definition cx_connected (c : dcli) : bool := match cx_conn c with [] => false | _ => true end.
(** The sessions a call goes to: SetHostName 133-138 filters by host; the loop over the known
    services 339-354 and 483-493. *)
Definition cx_targets (r : emap text dattr) (c : dcli) : list (text * dses) :=
  flat_map (fun a => if (is_nil (cx_host c) || eqb (cx_host c) (ca_host a))%bool
                     then match aget (ca_key a) (cx_ses c) with Some z => [(ca_key a, z)] | None => [] end else [])
    (named (cx_name c) r).

(** ** Arrival of a datagram *)
Definition px_applier (p : dproc) : applier :=
  ap_new (pc_network (px_cfg p)) (pc_loopback (px_cfg p)) (pc_group (px_cfg p)) (pc_pid (px_cfg p)).
(** The gates, registration/ecal_registration_sample_applier_gates.cpp 32-75. *)
Definition px_gates (now : Z) (m : sample) (p : dproc) : option dproc :=
  match sm_cmd m with bct_reg_service => px_apply now m p | _ => Some p end.
(** udp/ecal_registration_receiver_udp.cpp 51-55. *)
Definition px_sample (now : Z) (bs : text) (p : dproc) : option dproc :=
  match de_sample bs with
  | Ok m => if fst (ap_apply (px_applier p) m) then px_gates now m p else Some p
  | Fail => Some p
  | Fault => None
  end.
Definition px_datagram (now : Z) (bs : text) (p : dproc) : option dproc :=
  let (rx, out) := rx_step (fun _ => true) (RxArrive bs) (px_rx p) in
  let p1 := DProc (px_cfg p) rx (px_srv p) (px_cli p) (px_reg p) (px_applied p) in
  match rx with
  | Undefined => None
  | _ => match out with [] => Some p1 | b :: _ => px_sample now b p1 end
  end.

(** ** Operations *)
Inductive pop :=
| PServe (x : nat) (name id : text) (r : service)   (* CServiceServer::Create *)
| PMethods (x : nat) (ms : list method)             (* methods added, removed or called *)
| PEnd (x : nat)                                    (* CServiceServer::Destroy, ecal_service_server.cpp 93-106 *)
| PClient (x : nat) (name : text)                   (* CServiceClient::Create, ecal_service_client.cpp 95-108 *)
| PHost (x : nat) (h : text)                        (* SetHostName 133-138 *)
| PGo (x : nat)                                     (* CServiceClient::Destroy 115-128 *)
| PCollect                                          (* RegisterSendThread 161-170 *)
| PFlush                                            (* RegisterSendThread 172-177 *)
| PHear (k : nat) (now : Z)                         (* the k-th datagram arrives *)
| PCall (x : nat)                                   (* Call: CheckForNewServices, then the targets *)
| PFail (x : nat) (k : text).                       (* the session of this service fails *)
Definition with_srv (p : dproc) (l : list (nat * dsrv)) : dproc := DProc (px_cfg p) (px_rx p) l (px_cli p) (px_reg p) (px_applied p).
Definition with_cli (p : dproc) (l : list (nat * dcli)) : dproc := DProc (px_cfg p) (px_rx p) (px_srv p) l (px_reg p) (px_applied p).
Definition on_cli (x : nat) (f : dcli -> dcli) (p : dproc) : dproc :=
  match aget x (px_cli p) with Some c => with_cli p (aset x (f c) (px_cli p)) | None => p end.
Definition px_step (sent : list sample) (o : pop) (p : dproc) : option (dproc * list sample) :=
  match o with
  | PServe x name id r =>
      match aget x (px_srv p) with Some _ => Some (p, []) | None => Some (with_srv p (aset x (DSrv name id r) (px_srv p)), []) end
  | PMethods x ms =>
      match aget x (px_srv p) with
      | Some e =>
          let r := sx_rest e in
          Some (with_srv p (aset x (DSrv (sx_name e) (sx_id e)
            (Service (sv_rclock r) (sv_pname r) (sv_uname r) (sv_sname r) ms (sv_version r) (sv_port0 r) (sv_port1 r))) (px_srv p)), [])
      | None => Some (p, [])
      end
  | PEnd x =>
      match aget x (px_srv p) with
      | Some e => Some (DProc (px_cfg p) (px_rx p) (adel x (px_srv p)) (px_cli p) (px_reg p) (px_applied p ++ [sx_unreg (px_cfg p) e]), [])
      | None => Some (p, [])
      end
  | PClient x name =>
      match aget x (px_cli p) with Some _ => Some (p, []) | None => Some (with_cli p (aset x (DCli name [] [] []) (px_cli p)), []) end
  | PHost x h => Some (on_cli x (fun c => DCli (cx_name c) (if eqb h (str "*") then [] else h) (cx_conn c) (cx_ses c)) p, [])
  | PGo x => Some (with_cli p (adel x (px_cli p)), [])
  | PCollect =>
      Some (with_cli p (map (fun xc => (fst xc, cx_check (cx_refresh (px_reg p) (snd xc)))) (px_cli p)),
            map (fun xe => sx_reg (px_cfg p) (snd xe)) (px_srv p))
  | PFlush => Some (DProc (px_cfg p) (px_rx p) (px_srv p) (px_cli p) (px_reg p) [], px_applied p)
  | PHear k now =>
      match nth_error sent k with
      | None => Some (p, [])
      | Some m =>
          match px_datagram now (datagram NetModel.reg_sample (ser_sample m)) p with Some p' => Some (p', []) | None => None end
      end
  | PCall x => Some (on_cli x (cx_refresh (px_reg p)) p, [])
  | PFail x k =>
      Some (on_cli x (fun c => DCli (cx_name c) (cx_host c) (cx_conn c)
                         (match aget k (cx_ses c) with Some z => aset k (DSes (ss_proto z) (ss_ends z) true) (cx_ses c) | None => cx_ses c end)) p, [])
  end.
Inductive dop := DStart (p : nat) (c : dcfg) | DAt (p : nat) (o : pop).
Definition dn_step (o : dop) (s : dnet) : option dnet :=
  match o with
  | DStart p c =>
      match aget p (dn_procs s) with Some _ => Some s | None => Some (DNet (aset p (px_new c) (dn_procs s)) (dn_sent s)) end
  | DAt p o =>
      match aget p (dn_procs s) with
      | None => Some s
      | Some q => match px_step (dn_sent s) o q with Some (q', out) => Some (DNet (aset p q' (dn_procs s)) (dn_sent s ++ out)) | None => None end
      end
  end.
Fixpoint dn_run (l : list dop) (s : dnet) : option dnet :=
  match l with [] => Some s | o :: l' => match dn_step o s with Some s' => dn_run l' s' | None => None end end.
