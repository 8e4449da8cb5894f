(** Discovery between processes: the registrations of publishers and subscribers travel as
    UDP datagrams and fill the tables of connections of their counterparts.
    ecal/core/src/readwrite/ecal_writer.cpp 433-529, 570-729, ecal_reader.cpp 284-313, 523-664;
    ecal/core/src/registration/ecal_registration_provider.cpp 111-178,
    udp/ecal_registration_sender_udp.cpp 57-78, udp/ecal_registration_receiver_udp.cpp 47-58.

    The parts are those of the other areas: serialization (SerModel), datagrams (UdpModel), the
    sample applier (RegModel), the gates (GateModel), the expiring table and the connection
    events (ExpMapModel, ConnModel).  The network keeps every datagram ever sent; any of them may
    be handed to any process at any time, once, several times or never, in any order.

    Simplified: an operation runs to its end before the next one of the same process starts (what
    overlapping does is the subject of ConnModel and RegModel); registrations of processes,
    services and clients are left out (the gates of publishers and subscribers ignore them);
    the layers of a writer are those the environment says ([NTouch]). *)
From Verif Require Import Base Sample ExpMapModel ConnModel WrModel RegModel PbModel SerModel UdpModel GateModel.

(** ** Publishers and subscribers *)
Notation nval := (datatype * sublayers)%type.
Definition nval0 : nval := (dt0, SubLayers false false false).
(** A CDataWriter or a CDataReader: m_topic_name, m_topic_id, everything else it tells about
    itself, and m_sub_map / m_pub_map with m_connected and the events. *)
Record nend := NEnd { ne_name : text; ne_id : text; ne_rest : topic; ne_conn : conn subinfo nval }.
Inductive side := PubSide | SubSide.
(** One gate with its objects. *)
Record half := Half { hf_gate : gate; hf_ends : list (nat * nend) }.
(** Process::GetHostName, GetHostGroupName, GetProcessID; network mode, loopback, and the
    registration timeout. *)
Record ncfg := NCfg { nc_host : text; nc_group : text; nc_pid : Z; nc_network : bool; nc_loopback : bool; nc_timeout : Z }.
Record nproc := NProc { np_cfg : ncfg; np_rx : rx_state; np_pub : half; np_sub : half; np_applied : list sample }.
Record net := Net { nt_procs : list (nat * nproc); nt_sent : list sample }.
Definition net0 : net := Net [] [].

Definition np_half (sd : side) (p : nproc) : half := match sd with PubSide => np_pub p | SubSide => np_sub p end.
Definition np_set (sd : side) (h : half) (p : nproc) : nproc :=
  match sd with
  | PubSide => NProc (np_cfg p) (np_rx p) h (np_sub p) (np_applied p)
  | SubSide => NProc (np_cfg p) (np_rx p) (np_pub p) h (np_applied p)
  end.

(** ** Samples *)
(** The numbers of entries of m_sub_map with and without the own host, ecal_writer.cpp 688-706. *)
Definition n_loc (host : text) (e : nend) : Z :=
  Z.of_nat (length (filter (fun x => eqb (si_host (fst x)) host) (em_contents (cn_map (ne_conn e))))).
Definition n_ext (host : text) (e : nend) : Z := (Z.of_nat (length (em_contents (cn_map (ne_conn e)))) - n_loc host e)%Z.
(** GetRegistrationSample, ecal_writer.cpp 613-709 and ecal_reader.cpp 567-644. *)
Definition n_topic (c : ncfg) (e : nend) (loc ext : Z) : topic :=
  let r := ne_rest e in
  Topic (tp_rclock r) (nc_group c) (tp_pname r) (tp_uname r) (ne_name e) (tp_direction r) (tp_dtype r) (tp_layers r) (tp_tsize r)
    loc ext (tp_drops r) (tp_did r) (tp_dclock r) (tp_dfreq r) (tp_attr r).
Definition n_reg (c : ncfg) (sd : side) (e : nend) : sample :=
  match sd with
  | PubSide => Sample (ne_id e) (nc_pid c) (nc_host c) bct_reg_publisher [] [] process0 service0 client0
                 (n_topic c e (to_i32 (n_loc (nc_host c) e)) (to_i32 (n_ext (nc_host c) e)))
  | SubSide => Sample (ne_id e) (nc_pid c) (nc_host c) bct_reg_subscriber [] [] process0 service0 client0 (n_topic c e 0 0)
  end.
(** GetUnregistrationSample, ecal_writer.cpp 711-729, ecal_reader.cpp 646-664. *)
Definition n_unreg (c : ncfg) (sd : side) (e : nend) : sample :=
  let r := ne_rest e in
  Sample (ne_id e) (nc_pid c) (nc_host c) (match sd with PubSide => bct_unreg_publisher | SubSide => bct_unreg_subscriber end)
    [] [] process0 service0 client0
    (Topic 0 (nc_group c) (tp_pname r) (tp_uname r) (ne_name e) [] dt0 [] 0 0 0 0 0 0 0 []).

(** ** Steps of a process *)
(** A whole call of ApplySubscription / ApplyPublication, RemoveSubscription /
    RemovePublication, CheckConnections: ecal_writer.cpp 433-529 and 594-603, ecal_reader.cpp
    284-313 and 547-556. *)
Definition ne_call (o : wop subinfo nval) (e : nend) : option nend :=
  match micro_run nval0 (whole o) (ne_conn e) with
  | Some c => Some (NEnd (ne_name e) (ne_id e) (ne_rest e) c)
  | None => None
  end.
Definition hf_call (x : nat) (o : wop subinfo nval) (h : half) : option half :=
  match aget x (hf_ends h) with
  | Some e => match ne_call o e with Some e' => Some (Half (hf_gate h) (aset x e' (hf_ends h))) | None => None end
  | None => Some h
  end.
Definition np_call (now : Z) (p : nproc) (g : gcall) : option nproc :=
  match g with
  | GP (PSub w i d l) => match hf_call w (WApply now i (d, l)) (np_pub p) with Some h => Some (np_set PubSide h p) | None => None end
  | GP (PUnsub w i) => match hf_call w (WRemove i) (np_pub p) with Some h => Some (np_set PubSide h p) | None => None end
  | GS (SPub r i d l) => match hf_call r (WApply now i (d, l)) (np_sub p) with Some h => Some (np_set SubSide h p) | None => None end
  | GS (SUnpub r i) => match hf_call r (WRemove i) (np_sub p) with Some h => Some (np_set SubSide h p) | None => None end
  | GS (SPar _ _ _) => Some p
  end.
Fixpoint np_calls (now : Z) (l : list gcall) (p : nproc) : option nproc :=
  match l with [] => Some p | g :: l' => match np_call now p g with Some p' => np_calls now l' p' | None => None end end.
Definition np_applier (p : nproc) : applier :=
  ap_new (nc_network (np_cfg p)) (nc_loopback (np_cfg p)) (nc_group (np_cfg p)) (nc_pid (np_cfg p)).
(** The callback of the receiver, udp/ecal_registration_receiver_udp.cpp 51-55. *)
Definition np_sample (now : Z) (bs : text) (p : nproc) : option nproc :=
  match de_sample bs with
  | Ok s => np_calls now (arrive (np_applier p) (nc_host (np_cfg p)) s (hf_gate (np_pub p)) (hf_gate (np_sub p))) p
  | Fail => Some p
  | Fault => None
  end.
Definition np_datagram (now : Z) (bs : text) (p : nproc) : option nproc :=
  let (rx, out) := rx_step (fun _ => true) (RxArrive bs) (np_rx p) in
  let p1 := NProc (np_cfg p) rx (np_pub p) (np_sub p) (np_applied p) in
  match rx with
  | Undefined => None
  | _ => match out with [] => Some p1 | b :: _ => np_sample now b p1 end
  end.
(** GetRegistrations of a gate: every object checks its connections and gives its sample. *)
Fixpoint hf_collect (c : ncfg) (sd : side) (now : Z) (l : list nat) (h : half) : option (half * list sample) :=
  match l with
  | [] => Some (h, [])
  | x :: l' =>
      match hf_call x (WCheck now) h with
      | Some h1 =>
          match hf_collect c sd now l' h1 with
          | Some (h2, out) => Some (h2, match aget x (hf_ends h1) with Some e => n_reg c sd e :: out | None => out end)
          | None => None
          end
      | None => None
      end
  end.

(** ** Steps of the network *)
Inductive nop :=
| NStart (p : nat) (c : ncfg)                                        (* eCAL::Initialize *)
| NCreate (p : nat) (sd : side) (x : nat) (name id : text) (r : topic) (* Create of a publisher or subscriber *)
| NTouch (p : nat) (sd : side) (x : nat) (r : topic)                 (* what it tells about itself changes *)
| NRegister (p : nat) (x : nat)                                      (* CDataWriter::Register 570-580, at any time *)
| NDestroy (p : nat) (sd : side) (x : nat)                           (* Destroy, with Unregister 582-592 *)
| NCollect (p : nat) (now : Z)                                       (* RegisterSendThread 141-171 *)
| NFlush (p : nat)                                                   (* RegisterSendThread 173-178 *)
| NDeliver (p : nat) (k : nat) (now : Z).                            (* the k-th datagram arrives *)
Definition on_proc (p : nat) (s : net) (f : nproc -> option (nproc * list sample)) : option net :=
  match aget p (nt_procs s) with
  | None => Some s
  | Some q => match f q with Some (q', out) => Some (Net (aset p q' (nt_procs s)) (nt_sent s ++ out)) | None => None end
  end.
Definition reg_sample : text := str "reg_sample".
Definition net_step (o : nop) (s : net) : option net :=
  match o with
  | NStart p c =>
      match aget p (nt_procs s) with
      | Some _ => Some s
      | None => Some (Net (aset p (NProc c Listening (Half (Gate true []) []) (Half (Gate true []) []) []) (nt_procs s)) (nt_sent s))
      end
  | NCreate p sd x name id r =>
      on_proc p s (fun q =>
        let h := np_half sd q in
        match aget x (hf_ends h) with
        | Some _ => Some (q, [])
        | None => Some (np_set sd (Half (fst (gt_register name x (hf_gate h)))
                                        (aset x (NEnd name id r (conn_new (nc_timeout (np_cfg q)))) (hf_ends h))) q, [])
        end)
  | NTouch p sd x r =>
      on_proc p s (fun q =>
        let h := np_half sd q in
        match aget x (hf_ends h) with
        | Some e => Some (np_set sd (Half (hf_gate h) (aset x (NEnd (ne_name e) (ne_id e) r (ne_conn e)) (hf_ends h))) q, [])
        | None => Some (q, [])
        end)
  | NRegister p x =>
      on_proc p s (fun q =>
        match aget x (hf_ends (np_pub q)) with
        | Some e => Some (NProc (np_cfg q) (np_rx q) (np_pub q) (np_sub q) (np_applied q ++ [n_reg (np_cfg q) PubSide e]), [])
        | None => Some (q, [])
        end)
  | NDestroy p sd x =>
      on_proc p s (fun q =>
        let h := np_half sd q in
        match aget x (hf_ends h) with
        | Some e =>
            let q1 := np_set sd (Half (fst (gt_unregister (ne_name e) x (hf_gate h))) (adel x (hf_ends h))) q in
            Some (NProc (np_cfg q1) (np_rx q1) (np_pub q1) (np_sub q1) (np_applied q1 ++ [n_unreg (np_cfg q) sd e]), [])
        | None => Some (q, [])
        end)
  | NCollect p now =>
      on_proc p s (fun q =>
        match hf_collect (np_cfg q) SubSide now (gt_all (hf_gate (np_sub q))) (np_sub q) with
        | Some (hs, o1) =>
            match hf_collect (np_cfg q) PubSide now (gt_all (hf_gate (np_pub q))) (np_pub q) with
            | Some (hp, o2) => Some (NProc (np_cfg q) (np_rx q) hp hs (np_applied q), o1 ++ o2)
            | None => None
            end
        | None => None
        end)
  | NFlush p => on_proc p s (fun q => Some (NProc (np_cfg q) (np_rx q) (np_pub q) (np_sub q) [], np_applied q))
  | NDeliver p k now =>
      match nth_error (nt_sent s) k with
      | None => Some s
      | Some m => on_proc p s (fun q => match np_datagram now (datagram reg_sample (ser_sample m)) q with Some q' => Some (q', []) | None => None end)
      end
  end.
Fixpoint net_run (l : list nop) (s : net) : option net :=
  match l with [] => Some s | o :: l' => match net_step o s with Some s' => net_run l' s' | None => None end end.
