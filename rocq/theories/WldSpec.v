(** Vocabulary for publishing and subscribing between processes. *)
From Verif Require Import Base Sample ExpMapModel ConnModel PbModel PbSpec SerModel SerSpec WrModel WrSpec RdModel RdSpec UdpModel UdpSpec TcpModel GateModel NetModel NetSpec E2eModel WldModel.

(** The operations lead to this world, and the users have seen these events. *)
Definition runs (ops : list wdop) (s : world) (evs : list wev) : Prop := wd_run ops world0 = Some (s, evs).
(** In process [p] with settings [c] there is publisher [x]: its part in the discovery and its writer. *)
Definition publisher (s : world) (p x : nat) (c : ncfg) (e : nend) (u : wpub) : Prop :=
  here (wd_net s) p PubSide x c e /\ aget x (wq_pubs (wd_proc p s)) = Some u.
Definition subscriber (s : world) (q y : nat) (c : ncfg) (e : nend) (rc : rcfg) (r : reader) : Prop :=
  here (wd_net s) q SubSide y c e /\ aget y (wq_subs (wd_proc q s)) = Some (rc, r).

(** Values of the C++ types, names of usual lengths without zero bytes, payloads below 2 GiB. *)
Definition usual_name (t : text) : Prop := t <> [] /\ no_zero t /\ (len t <= 20000)%Z.
Definition usual_op (o : wdop) : Prop :=
  match o with
  | WdNet (NStart _ c) => i32 (nc_pid c) /\ (len (nc_host c) <= 20000)%Z
  | WdPub _ _ name id r c => wf_topic r /\ usual_name name /\ usual_name id /\ (0 <= wc_tid_hash c < 2 ^ 64)%Z
  | WdSub _ _ _ _ r _ | WdTouch _ _ _ r => wf_topic r
  | WdSend _ _ pay time _ _ _ => (len pay < 2 ^ 31)%Z /\ i64 time
  | WdSetID _ _ id => i64 id
  | _ => True
  end.
Definition usual (ops : list wdop) : Prop := Forall usual_op ops /\ (Z.of_nat (length ops) < 2 ^ 63)%Z.

(** The publisher writes to the layer. *)
Definition uses (u : wpub) (l : ltype) : Prop := In l (WrSpec.layers_of (wu_w u)).
(** For this counterpart the layer is the first of the priorities that both have. *)
Definition layer_for (u : wpub) (k : subinfo) (v : nval) (l : ltype) : Prop := best_layer (wu_cfg u) k (snd v) l.
(** The message of a send of the publisher in this state, as a subscriber gets it from layer [l]. *)
Definition message (e : nend) (u : wpub) (pay : list Z) (time : Z) (l : ltype) : msg :=
  let n := (w_clock (wu_w u) + 1)%Z in
  Msg (ne_id e) pay (w_user_id (wu_w u)) n time (snd_hash (wc_tid_hash (wu_cfg u)) n) l.
(** The message is a send among the operations: of a publisher of that topic that listed a subscriber
    at that moment and wrote to that layer. *)
Definition was_sent (ops : list wdop) (topic : text) (m : msg) : Prop :=
  exists a b p x pay time okS okU okT s1 evs1 c e u,
    ops = a ++ WdSend p x pay time okS okU okT :: b /\ runs a s1 evs1 /\ publisher s1 p x c e u /\ ne_name e = topic /\
    m = message e u pay time (m_layer m) /\ uses u (m_layer m) /\ exists k v, lists e k v.
(** The subscriber will take the message: it reads the layer, has not seen it among the last
    64, does not filter its id out, and has seen no message of the publisher as new as this one. *)
Definition welcome (rc : rcfg) (r : reader) (m : msg) : Prop :=
  rd_created r = true /\ layer_on rc (m_layer m) = true /\ ~ In (m_hash m) (rd_hashes r) /\ (rd_ids r = [] \/ In (m_id m) (rd_ids r)) /\
  forall n, aget (m_tid m) (rd_clocks r) = Some n -> (n < m_clock m)%Z.
Definition layer_of_packet (k : packet) : ltype := match k with KUdp _ => tl_udp | KTcp _ => tl_tcp | KShm _ _ _ _ => tl_shm end.
(** The layers a subscriber registers. *)
Definition reads_from (rc : rcfg) : sublayers := SubLayers (rc_udp rc) (rc_shm rc) (rc_tcp rc).
(** What the layers have answered to a send. *)
Definition answer (okS okU okT : bool) (l : ltype) : bool := match l with tl_shm => okS | tl_udp => okU | tl_tcp => okT | _ => false end.
(** What one subscriber has put out, and the messages its callback got. *)
Definition outs_at (q y : nat) (evs : list wev) : list rout :=
  flat_map (fun e => match e with EvOut q' y' o => if (Nat.eqb q' q && Nat.eqb y' y)%bool then [o] else [] | _ => [] end) evs.
Definition called_at (q y : nat) (evs : list wev) : list msg :=
  flat_map (fun o => match o with ROCallback _ m => [m] | _ => [] end) (outs_at q y evs).

(** ** Example: two processes on two hosts *)
Definition wd_pc : wcfg := WCfg [] true true true [tl_shm; tl_udp; tl_tcp] [tl_udp; tl_tcp] false 12345 10.
Definition wd_rc : rcfg := RCfg true true true true.
Definition wd_setup : list wdop :=
  [WdNet (NStart 1 n_ca); WdNet (NStart 2 n_cb); WdPub 1 0 (str "t") (str "100") n_pr wd_pc; WdSub 2 0 (str "t") (str "200") n_sr wd_rc;
   WdUser 2 0 (RSetCallback 5)].
(** The first send comes before the publisher has heard of the subscriber, the others after it. *)
Definition wd_talk : list wdop :=
  wd_setup ++ [WdSend 1 0 [1; 2]%Z 100 true true true; WdNet (NCollect 2 0); WdNet (NDeliver 1 0 1);
               WdSend 1 0 [3]%Z 200 true true true; WdSetID 1 0 9; WdSend 1 0 [4; 5]%Z 300 true true true].
(** The packets arrive, the second one twice. *)
Definition wd_heard : list wdop := wd_talk ++ [WdPacket 2 0 0; WdPacket 2 1 0; WdPacket 2 1 0; WdPacket 2 0 0].
(** A subscriber that only reads TCP comes and goes; then one that only reads UDP comes. *)
Definition wd_left : list wdop :=
  [WdNet (NStart 1 n_ca); WdNet (NStart 2 n_cb); WdPub 1 0 (str "t") (str "100") n_pr wd_pc;
   WdSub 2 0 (str "t") (str "200") n_sr (RCfg false false true true); WdNet (NCollect 2 0); WdNet (NDeliver 1 0 1);
   WdNet (NDestroy 2 SubSide 0); WdNet (NFlush 2); WdNet (NDeliver 1 1 2);
   WdSub 2 1 (str "t") (str "201") n_sr (RCfg true false false true); WdNet (NCollect 2 3); WdNet (NDeliver 1 2 4)].
Definition wd_seen (ops : list wdop) : option (list wev) := match wd_run ops world0 with Some (_, evs) => Some evs | None => None end.
Definition wd_sent (ops : list wdop) : option (list ltype) :=
  match wd_run ops world0 with Some (s, _) => Some (map layer_of_packet (wd_packets s)) | None => None end.
