(** Vocabulary for the way of a message from send to callback. *)
From Verif Require Import Base Sample PbModel PbSpec SerModel SerSpec WrModel WrSpec RdModel RdSpec UdpModel UdpSpec TcpModel GateModel E2eModel.
From Verif Require ShmModel.

(** The n-th send of the calls (counted from 1): its payload, time and the id in force. *)
Definition nth_send (calls : list wcall) (n : nat) (pay : list Z) (time id : Z) : Prop :=
  exists a b okS okU okT, calls = a ++ CSend pay time okS okU okT :: b /\ n = S (sends a) /\ id = id_after a.
(** What the publisher hands to its layers in the course of the calls. *)
Definition transmits (p : pub) (calls : list wcall) (t : tx) : Prop :=
  exists w outs, w_run (p_cfg p) (wcalls calls) (w_new (p_cfg p)) = Some (w, outs) /\ In (WTx t) outs.
(** Some run of the shared memory layer whose publisher writes only transmitted messages, all payloads with
    success, hands over header and bytes at an observer. *)
Definition shm_handed (p : pub) (calls : list wcall) (h : ShmModel.hdr) (bs : list Z) : Prop :=
  exists buffers min ops s tr pid nm, 0 < buffers /\ ShmModel.sh_run ops (ShmModel.sh_init buffers min true) = Some (s, tr) /\
    (forall m extra ok, In (ShmModel.SPrepare m extra ok) ops -> exists t zero ack, transmits p calls t /\ tx_layer t = tl_shm /\ shm_out zero ack t = Some m) /\
    (forall j, ~ In (ShmModel.SPayload (Some j)) ops) /\
    In (ShmModel.EvDeliver pid nm h bs) tr.
(** Packet k comes from the n-th send of the publisher. *)
Inductive carries (p : pub) (calls : list wcall) (n : nat) : packet -> Prop :=
| by_udp t k : transmits p calls t -> tx_layer t = tl_udp -> WrModel.tx_clock t = Z.of_nat n -> udp_out p t = Some k -> carries p calls n k
| by_tcp t k : transmits p calls t -> tx_layer t = tl_tcp -> WrModel.tx_clock t = Z.of_nat n -> tcp_out p t = Some k -> carries p calls n k
| by_shm h bs : shm_handed p calls h bs -> ShmModel.h_clock h = Z.of_nat n -> carries p calls n (KShm (p_topic p) (p_tid p) h bs).

(** Names and messages of ordinary size: the topic name without zero byte, names not empty and together at most 65000 bytes long,
    payloads below 2 GiB, numbers within 64 bits. *)
Definition ordinary (p : pub) (calls : list wcall) : Prop :=
  p_topic p <> [] /\ p_tid p <> [] /\ no_zero (p_topic p) /\ (len (p_host p) + len (p_topic p) + len (p_tid p) <= 65000)%Z /\
  (0 <= wc_tid_hash (p_cfg p) < 2 ^ 64)%Z /\ (Z.of_nat (sends calls) < 2 ^ 63)%Z /\
  (forall n pay time id, nth_send calls n pay time id -> (len pay < 2 ^ 31)%Z /\ i64 time /\ i64 id).

(** A message handed to the subscriber is the n-th send of the publisher. *)
Definition is_send (p : pub) (calls : list wcall) (n : nat) (m : msg) : Prop :=
  m_tid m = p_tid p /\ m_clock m = Z.of_nat n /\ nth_send calls n (m_payload m) (m_time m) (m_id m).
(** The messages given to the receive callback, in order. *)
Definition called (outs : list rout) : list msg := flat_map (fun o => match o with ROCallback _ m => [m] | _ => [] end) outs.
(** Publishers of the network with their calls. *)
Definition network := list (pub * list wcall).
Definition from_network (net : network) (i : ein) : Prop :=
  match i with IPacket k => exists p calls n, In (p, calls) net /\ carries p calls n k | IUser _ => True end.
Definition sane (net : network) : Prop := forall p calls, In (p, calls) net -> ordinary p calls.
(** The numbers that are greater than all before them. *)
Definition records_step (acc : list nat) (n : nat) : list nat := if forallb (fun x => Nat.ltb x n) acc then acc ++ [n] else acc.
Definition records (ns : list nat) : list nat := fold_left records_step ns [].
(** Packets as they arrive at a subscriber of the topic of p: the numbers of those of p, and any packets of other topics in between. *)
Inductive mixed (p : pub) (calls : list wcall) : list packet -> list nat -> Prop :=
| mix_nil : mixed p calls [] []
| mix_own n k ks ns : carries p calls n k -> mixed p calls ks ns -> mixed p calls (k :: ks) (n :: ns)
| mix_other q qcalls n k ks ns : ordinary q qcalls -> p_topic q <> p_topic p -> carries q qcalls n k ->
    mixed p calls ks ns -> mixed p calls (k :: ks) ns.

(** An example: a publisher with a local subscriber over shared memory and a remote one over UDP sends three messages. *)
Definition ex_pub : pub := Pub (str "h") (str "speed") (str "77") (WCfg (str "h") true true true [tl_shm; tl_udp; tl_tcp] [tl_udp; tl_tcp] false 12345 1000).
Definition ex_calls : list wcall :=
  [CSub 0 (SubInfo (str "h") 7 (str "s1")) (SubLayers true true true); CSub 0 (SubInfo (str "far") 8 (str "s2")) (SubLayers true true true);
   CSend [1; 2]%Z 100 true true true; CSetID 5; CSend [] 200 true true true; CSend [9]%Z 300 true true true].
Definition ex_tx (n : nat) (l : ltype) : WrModel.tx :=
  match n with
  | 1 => same_message (p_cfg ex_pub) 0 1 [1; 2]%Z 100 l
  | 2 => same_message (p_cfg ex_pub) 5 2 [] 200 l
  | _ => same_message (p_cfg ex_pub) 5 3 [9]%Z 300 l
  end.
Definition ex_udp (n : nat) : packet := match udp_out ex_pub (ex_tx n tl_udp) with Some k => k | None => KTcp [] end.
Definition ex_shm_msg : ShmModel.msg := ShmModel.Msg 0 1 100 (snd_hash 12345 1) false 0 [1; 2]%Z.
Definition ex_shm : packet := KShm (str "speed") (str "77") (ShmModel.hdr_of ex_shm_msg) [1; 2]%Z.
Definition ex_shm_ops : list ShmModel.sop :=
  [ShmModel.SConnect 0 7; ShmModel.SStart 7 0; ShmModel.SPrepare ex_shm_msg 0 true; ShmModel.SLock; ShmModel.SHeader; ShmModel.SPayload None; ShmModel.SRelease;
   ShmModel.SSet 7; ShmModel.SReturn; ShmModel.SWait 7 0; ShmModel.SAccess 7 0; ShmModel.SReadHdr 7 0; ShmModel.SReadPay 7 0; ShmModel.SReadEnd 7 0; ShmModel.SCall 7 0].
