(** A message on its whole way: from CPublisher::Send through the layers of the writer, as packets, through the
    receiving side of the layers and the subscriber gate to one subscriber of another process.
    The parts are those of WrModel, ShmModel, SerModel, UdpModel, TcpModel, GateModel and RdModel; here they are put together.
    ecal/core/src/readwrite/udp/ecal_writer_udp.cpp 73-119, tcp/ecal_writer_tcp.cpp 74-160, shm/ecal_writer_shm.cpp 77-88;
    udp/ecal_reader_udp.cpp 107-125, tcp/ecal_reader_tcp.cpp 89-123, shm/ecal_reader_shm.cpp 80-87.

    The libraries ecaludp and tcp_pubsub are taken to deliver a packet unchanged; they may lose, repeat and reorder
    packets. *)
From Verif Require Import Base Sample PbModel SerModel WrModel RdModel UdpModel TcpModel GateModel.
From Verif Require ShmModel.

(** A publisher: host name, topic name, topic id and configuration of its writer. *)
Record pub := Pub { p_host : text; p_topic : text; p_tid : text; p_cfg : wcfg }.
(** What travels: a UDP datagram, a TCP message, or what an observer of a memory file has read (topic and id
    are those the observer was started with). *)
Inductive packet := KUdp (bs : list Z) | KTcp (bs : list Z) | KShm (topic tid : text) (h : ShmModel.hdr) (bs : list Z).

(** CDataWriterUdpMC::Write: the sample, 75-94 (the size_t hash is stored in an int64_t, content.size is not set) and
    the datagram. *)
Definition udp_sample (p : pub) (t : WrModel.tx) (bs : list Z) : psample :=
  PSample bct_set_sample (p_host p) (p_tid p) (p_topic p)
    (WrModel.tx_id t) (WrModel.tx_clock t) (WrModel.tx_time t) (to_i64 (WrModel.tx_hash t)) 0 bs [].
Definition udp_out (p : pub) (t : WrModel.tx) : option packet :=
  match WrModel.tx_bytes t with
  | Some bs => Some (KUdp (datagram (p_topic p) (ser_payload (udp_sample p t bs))))
  | None => None
  end.
(** CDataWriterTCP::Write. *)
Definition tcp_out (p : pub) (t : WrModel.tx) : option packet :=
  match WrModel.tx_bytes t with
  | Some bs => match tcp_frame (p_topic p) (p_tid p) (TMsg (WrModel.tx_id t) (WrModel.tx_clock t) (WrModel.tx_time t) (WrModel.tx_hash t) bs) with
               | Some f => Some (KTcp f)
               | None => None
               end
  | None => None
  end.
(** CDataWriterSHM::Write, with zero copy and acknowledge timeout of the configuration. *)
Definition shm_out (zero : bool) (ack : Z) (t : WrModel.tx) : option ShmModel.msg :=
  match WrModel.tx_bytes t with
  | Some bs => Some (ShmModel.Msg (WrModel.tx_id t) (WrModel.tx_clock t) (WrModel.tx_time t) (WrModel.tx_hash t) zero ack bs)
  | None => None
  end.

(** The receiving process: its UDP receiver, the header kept by its TCP reader, and the subscriber. *)
Record node := Node { nd_udp : rx_state; nd_tcp : psample; nd_reader : reader }.
Definition node0 : node := Node Listening psample0 rd_new.
(** What the layers hand to the gate: topic name and message.  The UDP receiver asks the gate for the topic. *)
Definition hear (topic : text) (k : packet) (n : node) : node * list (text * msg) :=
  match k with
  | KUdp bs =>
      let (u, ps) := rx_step (eqb topic) (RxArrive bs) (nd_udp n) in
      (Node u (nd_tcp n) (nd_reader n), flat_map (fun p => match message_of tl_udp p with Some x => [x] | None => [] end) ps)
  | KTcp bs =>
      let (t, r) := tcp_receive (nd_tcp n) bs in
      (Node (nd_udp n) t (nd_reader n),
       match r with
       | TGot x => [(tx_tname x, Msg (tx_tid x) (tx_payload x) (tx_id x) (tx_clock x) (tx_time x) (tx_hash x mod 2 ^ 64)%Z tl_tcp)]
       | _ => []
       end)
  | KShm t i h bs => (n, [(t, Msg i bs (ShmModel.h_id h) (ShmModel.h_clock h) (ShmModel.h_time h) (ShmModel.h_hash h) tl_shm)])
  end.
(** CSubGate::ApplySample for one subscriber of the topic. *)
Definition offer (topic : text) (c : rcfg) (x : text * msg) (n : node) : node * list rout :=
  if eqb (fst x) topic
  then let (r, out) := rd_apply c (snd x) (nd_reader n) in (Node (nd_udp n) (nd_tcp n) r, out)
  else (n, []).
Fixpoint offers (topic : text) (c : rcfg) (xs : list (text * msg)) (n : node) : node * list rout :=
  match xs with
  | [] => (n, [])
  | x :: xs' => let (n1, o1) := offer topic c x n in let (n2, o2) := offers topic c xs' n1 in (n2, o1 ++ o2)
  end.
(** A packet arrives, or the user calls the subscriber. *)
Inductive ein := IPacket (k : packet) | IUser (o : rop).
Definition nd_step (topic : text) (c : rcfg) (i : ein) (n : node) : node * list rout :=
  match i with
  | IPacket k => let (n1, xs) := hear topic k n in offers topic c xs n1
  | IUser (RArrive _) => (n, [])
  | IUser o => let (r, out) := rd_step c o (nd_reader n) in (Node (nd_udp n) (nd_tcp n) r, out)
  end.
Fixpoint nd_run (topic : text) (c : rcfg) (is : list ein) (n : node) : node * list rout :=
  match is with
  | [] => (n, [])
  | i :: is' => let (n1, o1) := nd_step topic c i n in let (n2, o2) := nd_run topic c is' n1 in (n2, o1 ++ o2)
  end.
