(** Publishing and subscribing between processes as a whole: discovery (NetModel) decides which
    layers a publisher starts and whether it sends at all (WrModel), what it sends travels as
    packets (E2eModel), and what arrives goes through the gate of the receiving process to its
    subscribers (GateModel, RdModel).
    ecal/core/src/pubsub/ecal_publisher.cpp 73-181, ecal_subgate.cpp 104-210;
    ecal/core/src/readwrite/ecal_writer.cpp 145-354, 433-504, ecal_reader.cpp 567-644, 666-703;
    udp/ecal_reader_udp.cpp 107-125, tcp/ecal_reader_tcp.cpp 89-123, shm/ecal_reader_shm.cpp 80-87.

    The network keeps every registration and every packet ever sent; any of them may arrive at any
    process at any time, once, several times or never, in any order.

    Simplified: an operation runs to its end before the next one starts.  A packet may arrive
    anywhere: which multicast groups, TCP sessions and memory files a process listens to is not
    part of this model (it is that of Udp, Tcp and ShmModel), so what is shown to be received here
    is received if the packet arrives.  A packet of the shared memory layer is what an observer of
    the memory file reads (ShmModel shows that this is what was written).  The layer parameters in
    the registrations of publishers are those the environment says. *)
From Verif Require Import Base Sample ExpMapModel ConnModel WrModel RdModel RegModel PbModel SerModel UdpModel TcpModel GateModel NetModel E2eModel.
From Verif Require ShmModel.

(** A CDataWriter with its configuration; its m_sub_map is that of the discovery. *)
Record wpub := WPub { wu_cfg : wcfg; wu_w : writer }.
(** The data side of a process: its writers, the receiver of UDP payload, the header kept by each of its
    TCP data readers, and its readers. *)
Record wproc := WProc { wq_pubs : list (nat * wpub); wq_udp : rx_state; wq_tcp : list (nat * psample); wq_subs : list (nat * (rcfg * reader)) }.
Definition wproc0 : wproc := WProc [] Listening [] [].
Record world := World { wd_net : net; wd_procs : list (nat * wproc); wd_packets : list packet }.
Definition world0 : world := World net0 [] [].
Definition wd_proc (p : nat) (s : world) : wproc := match aget p (wd_procs s) with Some q => q | None => wproc0 end.
Definition set_pubs (l : list (nat * wpub)) (q : wproc) : wproc := WProc l (wq_udp q) (wq_tcp q) (wq_subs q).
Definition set_subs (l : list (nat * (rcfg * reader))) (q : wproc) : wproc := WProc (wq_pubs q) (wq_udp q) (wq_tcp q) l.

(** ** Registration *)
(** ecal_writer.cpp 448-480: the layer for the subscriber is determined and started (791-867). *)
Definition wr_start (c : wcfg) (k : subinfo) (s : sublayers) (w : writer) : writer :=
  let l := determine_layer c (pub_layers c) (sub_layers s) (eqb (wc_host c) (si_host k)) in
  Writer (w_user_id w) (w_id w) (w_clock w) (w_size w)
    (w_udp w || eqb l tl_udp) (w_shm w || eqb l tl_shm) (w_tcp w || eqb l tl_tcp) (w_buf w) (w_pend w) (w_conn w).
Definition wu_apply (l : list (nat * wpub)) (g : gcall) : list (nat * wpub) :=
  match g with
  | GP (PSub x i _ ly) => match aget x l with Some u => aset x (WPub (wu_cfg u) (wr_start (wu_cfg u) i ly (wu_w u))) l | None => l end
  | _ => l
  end.
(** The calls an arriving registration leads to, as in [np_datagram]. *)
Definition np_heard (bs : text) (q : nproc) : list gcall :=
  match snd (rx_step (fun _ => true) (RxArrive bs) (np_rx q)) with
  | b :: _ => match de_sample b with
              | Ok m => arrive (np_applier q) (nc_host (np_cfg q)) m (hf_gate (np_pub q)) (hf_gate (np_sub q))
              | _ => []
              end
  | [] => []
  end.
(** GetRegistrationSample of a reader, ecal_reader.cpp 596-632: its layers. *)
Definition layer_version : Z := 2.
Definition sub_tlayers (c : rcfg) (r : reader) : list Sample.tlayer :=
  [TLayer tl_udp layer_version (rc_udp c) (rd_act_udp r) 0%Z []; TLayer tl_shm layer_version (rc_shm c) (rd_act_shm r) 0%Z [];
   TLayer tl_tcp layer_version (rc_tcp c) (rd_act_tcp r) 0%Z []].
Definition with_layers (ys : list Sample.tlayer) (r : Sample.topic) : Sample.topic :=
  Topic (tp_rclock r) (tp_hgname r) (tp_pname r) (tp_uname r) (tp_tname r) (tp_direction r) (tp_dtype r) ys (tp_tsize r)
    (tp_conn_loc r) (tp_conn_ext r) (tp_drops r) (tp_did r) (tp_dclock r) (tp_dfreq r) (tp_attr r).
(** m_host_name of the writer is that of the process, ecal_writer.cpp 86. *)
Definition with_host (h : text) (c : wcfg) : wcfg :=
  WCfg h (wc_udp c) (wc_shm c) (wc_tcp c) (wc_prio_local c) (wc_prio_remote c) (wc_zero_copy c) (wc_tid_hash c) (wc_timeout c).

(** ** Sending *)
(** m_sub_map of the writer: of what discovery knows of the subscribers, their layers. *)
Definition cn_subs (c : conn subinfo nval) : conn subinfo sublayers :=
  Conn (cn_flag c)
    (EMap (e_list (cn_map c)) (map (fun x => (fst x, MEntry (snd (m_val (snd x))) (m_it (snd x)))) (e_map (cn_map c)))
          (e_timeout (cn_map c)) (e_next (cn_map c)))
    [] AIdle KIdle.
Definition wu_pub (c : ncfg) (e : nend) (u : wpub) : pub := Pub (nc_host c) (ne_name e) (ne_id e) (wu_cfg u).
Definition option_list {X : Type} (o : option X) : list X := match o with Some x => [x] | None => [] end.
Definition packets_of (p : pub) (outs : list wout) : list packet :=
  flat_map (fun o =>
    match o with
    | WTx t =>
        match tx_layer t with
        | tl_udp => option_list (udp_out p t)
        | tl_tcp => option_list (tcp_out p t)
        | tl_shm => match shm_out (wc_zero_copy (p_cfg p)) 0 t with
                    | Some m => [KShm (p_topic p) (p_tid p) (ShmModel.hdr_of m) (ShmModel.m_pay m)]
                    | None => []
                    end
        | _ => []
        end
    | WRet _ => []
    end) outs.
Definition results_of (outs : list wout) : list nat := flat_map (fun o => match o with WRet n => [n] | _ => [] end) outs.

(** ** Receiving *)
(** CSubGate::HasSample, ecal_subgate.cpp 104-108. *)
Definition has_sample (g : gate) (n : text) : bool := existsb (fun e => eqb (fst e) n) (gt_map g).
(** What the layers of the process make of a packet; [j] is the TCP data reader it arrives at. *)
Definition wq_hear (g : gate) (j : nat) (k : packet) (q : wproc) : wproc * list (text * msg) :=
  match k with
  | KUdp bs =>
      let (u, ps) := rx_step (has_sample g) (RxArrive bs) (wq_udp q) in
      (WProc (wq_pubs q) u (wq_tcp q) (wq_subs q), flat_map (fun p => option_list (message_of tl_udp p)) ps)
  | KTcp bs =>
      let (t, r) := tcp_receive (match aget j (wq_tcp q) with Some h => h | None => psample0 end) bs in
      (WProc (wq_pubs q) (wq_udp q) (aset j t (wq_tcp q)) (wq_subs q),
       match r with
       | TGot x => [(tx_tname x, Msg (tx_tid x) (tx_payload x) (TcpModel.tx_id x) (TcpModel.tx_clock x) (TcpModel.tx_time x) (TcpModel.tx_hash x mod 2 ^ 64)%Z tl_tcp)]
       | _ => []
       end)
  | KShm t i h bs => (q, [(t, Msg i bs (ShmModel.h_id h) (ShmModel.h_clock h) (ShmModel.h_time h) (ShmModel.h_hash h) tl_shm)])
  end.
(** CSubGate::ApplySample, ecal_subgate.cpp 185-210: every reader of the topic. *)
Fixpoint give (m : msg) (ys : list nat) (l : list (nat * (rcfg * reader))) : list (nat * (rcfg * reader)) * list (nat * rout) :=
  match ys with
  | [] => (l, [])
  | y :: ys' =>
      match aget y l with
      | Some (c, r) =>
          let (r', out) := rd_apply c m r in
          let (l', outs) := give m ys' (aset y (c, r') l) in
          (l', map (pair y) out ++ outs)
      | None => give m ys' l
      end
  end.
Fixpoint give_all (g : gate) (xs : list (text * msg)) (l : list (nat * (rcfg * reader))) : list (nat * (rcfg * reader)) * list (nat * rout) :=
  match xs with
  | [] => (l, [])
  | x :: xs' =>
      let (l1, o1) := if gt_on g then give (snd x) (gt_range (fst x) g) l else (l, []) in
      let (l2, o2) := give_all g xs' l1 in (l2, o1 ++ o2)
  end.

(** ** Steps *)
Inductive wdop :=
| WdNet (o : nop)                                                             (* start of a process, discovery, destruction *)
| WdPub (p x : nat) (name id : text) (r : topic) (c : wcfg)                   (* CPublisher::Create *)
| WdSub (q y : nat) (name id : text) (r : topic) (c : rcfg)                   (* CSubscriber::Create *)
| WdTouch (p : nat) (sd : side) (x : nat) (r : topic)                         (* what it tells about itself changes *)
| WdSend (p x : nat) (pay : list Z) (time : Z) (okS okU okT : bool)           (* CPublisher::Send *)
| WdSetID (p x : nat) (id : Z)                                                (* CPublisher::SetID *)
| WdPacket (q k j : nat)                                                      (* the k-th packet arrives *)
| WdUser (q y : nat) (o : rop).                                               (* the user calls a subscriber *)
(** What the user sees: the result of a send, and the outputs of a reader. *)
Inductive wev := EvRet (p x n : nat) | EvOut (q y : nat) (o : rout).

Definition wd_set (p : nat) (q : wproc) (s : world) : world := World (wd_net s) (aset p q (wd_procs s)) (wd_packets s).
Definition wd_nets (o : nop) (s : world) : option world :=
  match net_step o (wd_net s) with
  | Some n => Some (World n (wd_procs s) (wd_packets s))
  | None => None
  end.
Definition wd_end (sd : side) (p x : nat) (s : world) : option (ncfg * nend) :=
  match aget p (nt_procs (wd_net s)) with
  | Some q => match aget x (hf_ends (np_half sd q)) with Some e => Some (np_cfg q, e) | None => None end
  | None => None
  end.
Definition wd_silent (s : option world) : option (world * list wev) := match s with Some s' => Some (s', []) | None => None end.
Definition wd_step (o : wdop) (s : world) : option (world * list wev) :=
  match o with
  | WdNet (NCreate _ _ _ _ _ _) | WdNet (NTouch _ _ _ _) => Some (s, [])
  | WdNet (NDeliver p k now) =>
      wd_silent (wd_nets (NDeliver p k now)
        (match aget p (nt_procs (wd_net s)), nth_error (nt_sent (wd_net s)) k with
         | Some q, Some m =>
             wd_set p (set_pubs (fold_left wu_apply (np_heard (datagram reg_sample (ser_sample m)) q) (wq_pubs (wd_proc p s))) (wd_proc p s)) s
         | _, _ => s
         end))
  | WdNet (NDestroy p sd x) =>
      wd_silent (wd_nets (NDestroy p sd x)
        (wd_set p (match sd with
                   | PubSide => set_pubs (adel x (wq_pubs (wd_proc p s))) (wd_proc p s)
                   | SubSide => set_subs (adel x (wq_subs (wd_proc p s))) (wd_proc p s)
                   end) s))
  | WdNet o => wd_silent (wd_nets o s)
  | WdPub p x name id r c =>
      match aget p (nt_procs (wd_net s)), wd_end PubSide p x s with
      | Some q, None =>
          wd_silent (wd_nets (NCreate p PubSide x name id r)
            (wd_set p (set_pubs (aset x (WPub (with_host (nc_host (np_cfg q)) c) (w_new c)) (wq_pubs (wd_proc p s))) (wd_proc p s)) s))
      | _, _ => Some (s, [])
      end
  | WdSub q y name id r c =>
      match aget q (nt_procs (wd_net s)), wd_end SubSide q y s with
      | Some _, None =>
          wd_silent (wd_nets (NCreate q SubSide y name id (with_layers (sub_tlayers c rd_new) r))
            (wd_set q (set_subs (aset y (c, rd_new) (wq_subs (wd_proc q s))) (wd_proc q s)) s))
      | _, _ => Some (s, [])
      end
  | WdTouch p PubSide x r => wd_silent (wd_nets (NTouch p PubSide x r) s)
  | WdTouch q SubSide y r =>
      match aget y (wq_subs (wd_proc q s)) with
      | Some (c, rd) => wd_silent (wd_nets (NTouch q SubSide y (with_layers (sub_tlayers c rd) r)) s)
      | None => Some (s, [])
      end
  | WdSend p x pay time okS okU okT =>
      match wd_end PubSide p x s, aget x (wq_pubs (wd_proc p s)) with
      | Some (c, e), Some u =>
          match w_run (wu_cfg u) (wcall_ops (CSend pay time okS okU okT)) (set_conn (wu_w u) (cn_subs (ne_conn e))) with
          | Some (w, outs) =>
              Some (World (wd_net s) (aset p (set_pubs (aset x (WPub (wu_cfg u) w) (wq_pubs (wd_proc p s))) (wd_proc p s)) (wd_procs s))
                      (wd_packets s ++ packets_of (wu_pub c e u) outs),
                    map (EvRet p x) (results_of outs))
          | None => None
          end
      | _, _ => Some (s, [])
      end
  | WdSetID p x id =>
      match aget x (wq_pubs (wd_proc p s)) with
      | Some u =>
          match w_step (wu_cfg u) (OSetID id) (wu_w u) with
          | Some (w, _) => Some (wd_set p (set_pubs (aset x (WPub (wu_cfg u) w) (wq_pubs (wd_proc p s))) (wd_proc p s)) s, [])
          | None => None
          end
      | None => Some (s, [])
      end
  | WdPacket q k j =>
      match aget q (nt_procs (wd_net s)), nth_error (wd_packets s) k with
      | Some n, Some pk =>
          let g := hf_gate (np_sub n) in
          let (w, xs) := wq_hear g j pk (wd_proc q s) in
          let (l, outs) := give_all g xs (wq_subs w) in
          Some (wd_set q (set_subs l w) s, map (fun x => EvOut q (fst x) (snd x)) outs)
      | _, _ => Some (s, [])
      end
  | WdUser q y o =>
      match aget y (wq_subs (wd_proc q s)), o with
      | Some _, RArrive _ | Some _, RStop => Some (s, [])
      | Some (c, r), _ =>
          let (r', out) := rd_step c o r in
          Some (wd_set q (set_subs (aset y (c, r') (wq_subs (wd_proc q s))) (wd_proc q s)) s, map (EvOut q y) out)
      | None, _ => Some (s, [])
      end
  end.
Fixpoint wd_run (l : list wdop) (s : world) : option (world * list wev) :=
  match l with
  | [] => Some (s, [])
  | o :: l' =>
      match wd_step o s with
      | Some (s1, e1) => match wd_run l' s1 with Some (s2, e2) => Some (s2, e1 ++ e2) | None => None end
      | None => None
      end
  end.
