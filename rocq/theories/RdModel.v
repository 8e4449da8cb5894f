(** Model of the receiving side of a subscriber, CDataReader
    (ecal/core/src/readwrite/ecal_reader.cpp), without the connection bookkeeping
    (see ConnModel.v).  Every operation runs under the mutex the code takes, so
    operations are atomic. *)
From Verif Require Import Base Sample.

(** What a transport layer hands over: the arguments of ApplySample, line 368. *)
Record msg := Msg { m_tid : text; m_payload : list Z; m_id : Z; m_clock : Z; m_time : Z; m_hash : Z; m_layer : ltype }.

(** The part of Subscriber::Configuration that is used, and
    GetDropOutOfOrderMessages(). *)
Record rcfg := RCfg { rc_udp : bool; rc_shm : bool; rc_tcp : bool; rc_drop_ooo : bool }.

Record reader := Reader {
  rd_created : bool;
  rd_hashes : list Z;              (* m_sample_hash_queue, oldest first *)
  rd_ids : list Z;                 (* m_id_set *)
  rd_clocks : list (text * Z);     (* m_writer_counter_map *)
  rd_count : Z;                    (* m_clock *)
  rd_size : nat;                   (* m_topic_size *)
  rd_drops : Z;                    (* m_message_drops *)
  rd_cb : option nat;              (* m_receive_callback *)
  rd_dropcb : option nat;          (* m_event_callback_map[sub_event_dropped] *)
  rd_buf : list Z; rd_time : Z; rd_received : bool;   (* m_read_buf, m_read_time, m_read_buf_received *)
  rd_act_udp : bool; rd_act_shm : bool; rd_act_tcp : bool }.  (* m_layers.*.active *)

Definition rd_new : reader := Reader true [] [] [] 0 0 0 None None [] 0 false false false false.

(** Lines 374-388. *)
Definition layer_on (c : rcfg) (l : ltype) : bool :=
  match l with tl_udp => rc_udp c | tl_shm => rc_shm c | tl_tcp => rc_tcp c | _ => true end.

(** hash_queue_size, line 396. *)
Definition hash_queue_size : nat := 64.
(** Lines 410-413: push and trim. *)
Fixpoint trim (fuel : nat) (q : list Z) : list Z :=
  match fuel with
  | 0 => q
  | S f => if Nat.ltb hash_queue_size (length q) then trim f (tl q) else q
  end.
Definition hash_push (h : Z) (q : list Z) : list Z := trim (S (length q)) (q ++ [h]).

(** CheckMessageClock, lines 798-915: process it?, new clock entry, drops added,
    dropped event fired? *)
Definition check_clock (drop_ooo : bool) (last : option Z) (c : Z) : bool * option Z * Z * bool :=
  match last with
  | None => (true, Some c, 0%Z, false)
  | Some l =>
      let d := (c - l)%Z in
      if Z.eqb d 1 then (true, Some c, 0%Z, false)
      else if Z.eqb d 0 then (false, Some l, 0%Z, false)
      else if Z.ltb 1 d then (true, Some c, d, true)
      else if drop_ooo then (false, Some l, 0%Z, false) else (true, Some l, 0%Z, false)
  end.

(** What the outside world sees of an arrival. *)
Inductive rout :=
| ROReturn (size : nat)              (* return value of ApplySample *)
| RODropEvent (cb : nat) (clock : Z) (* dropped event callback *)
| ROCallback (cb : nat) (m : msg)    (* receive callback *)
| RORead (r : option (list Z * Z))   (* result of a receive call *)
| ROBool (b : bool).

Definition set_hashes r q := Reader (rd_created r) q (rd_ids r) (rd_clocks r) (rd_count r) (rd_size r) (rd_drops r)
  (rd_cb r) (rd_dropcb r) (rd_buf r) (rd_time r) (rd_received r) (rd_act_udp r) (rd_act_shm r) (rd_act_tcp r).
Definition set_active r (l : ltype) := Reader (rd_created r) (rd_hashes r) (rd_ids r) (rd_clocks r) (rd_count r) (rd_size r) (rd_drops r)
  (rd_cb r) (rd_dropcb r) (rd_buf r) (rd_time r) (rd_received r)
  (rd_act_udp r || eqb l tl_udp) (rd_act_shm r || eqb l tl_shm) (rd_act_tcp r || eqb l tl_tcp).
Definition set_clocks r cl d := Reader (rd_created r) (rd_hashes r) (rd_ids r) cl (rd_count r) (rd_size r) (rd_drops r + d)%Z
  (rd_cb r) (rd_dropcb r) (rd_buf r) (rd_time r) (rd_received r) (rd_act_udp r) (rd_act_shm r) (rd_act_tcp r).
(** m_clock++, m_topic_size = size_ (lines 442-455). *)
Definition set_counted r (n : nat) := Reader (rd_created r) (rd_hashes r) (rd_ids r) (rd_clocks r) (rd_count r + 1)%Z n (rd_drops r)
  (rd_cb r) (rd_dropcb r) (rd_buf r) (rd_time r) (rd_received r) (rd_act_udp r) (rd_act_shm r) (rd_act_tcp r).
Definition set_buf r b t rec := Reader (rd_created r) (rd_hashes r) (rd_ids r) (rd_clocks r) (rd_count r) (rd_size r) (rd_drops r)
  (rd_cb r) (rd_dropcb r) b t rec (rd_act_udp r) (rd_act_shm r) (rd_act_tcp r).
Definition set_cb r cb := Reader (rd_created r) (rd_hashes r) (rd_ids r) (rd_clocks r) (rd_count r) (rd_size r) (rd_drops r)
  cb (rd_dropcb r) (rd_buf r) (rd_time r) (rd_received r) (rd_act_udp r) (rd_act_shm r) (rd_act_tcp r).
Definition set_dropcb r cb := Reader (rd_created r) (rd_hashes r) (rd_ids r) (rd_clocks r) (rd_count r) (rd_size r) (rd_drops r)
  (rd_cb r) cb (rd_buf r) (rd_time r) (rd_received r) (rd_act_udp r) (rd_act_shm r) (rd_act_tcp r).
Definition set_ids r ids := Reader (rd_created r) (rd_hashes r) ids (rd_clocks r) (rd_count r) (rd_size r) (rd_drops r)
  (rd_cb r) (rd_dropcb r) (rd_buf r) (rd_time r) (rd_received r) (rd_act_udp r) (rd_act_shm r) (rd_act_tcp r).

(** ApplySample, lines 368-495. *)
Definition rd_apply (c : rcfg) (m : msg) (r : reader) : reader * list rout :=
  let size := length (m_payload m) in
  if negb (rd_created r) then (r, [ROReturn 0])
  else if negb (layer_on c (m_layer m)) then (r, [ROReturn 0])
  else
    let r := set_active r (m_layer m) in
    if existsb (Z.eqb (m_hash m)) (rd_hashes r) then (r, [ROReturn size])
    else
      let r := set_hashes r (hash_push (m_hash m) (rd_hashes r)) in
      if match rd_ids r with [] => false | _ => negb (existsb (Z.eqb (m_id m)) (rd_ids r)) end then (r, [ROReturn 0])
      else
        let '(ok, cl, d, ev) := check_clock (rc_drop_ooo c) (aget (m_tid m) (rd_clocks r)) (m_clock m) in
        let r := set_clocks r (match cl with Some x => aset (m_tid m) x (rd_clocks r) | None => rd_clocks r end) d in
        let evs := if ev then match rd_dropcb r with Some k => [RODropEvent k (m_clock m)] | None => [] end else [] in
        if negb ok then (r, evs ++ [ROReturn 0])
        else
          let r := set_counted r size in
          match rd_cb r with
          | Some k => (r, evs ++ [ROCallback k m; ROReturn size])
          | None => (set_buf r (m_payload m) (m_time m) true, evs ++ [ROReturn size])
          end.

(** Read, lines 146-185.  A call that waits is modelled at the moment it stops
    waiting: because a message arrived, or because its time is over. *)
Definition rd_read (r : reader) : reader * option (list Z * Z) :=
  if negb (rd_created r) then (r, None)
  else if rd_received r then (set_buf r [] (rd_time r) false, Some (rd_buf r, rd_time r))
  else (r, None).

Inductive rop :=
| RArrive (m : msg)
| RRead
| RSetCallback (k : nat)      (* AddReceiveCallback, lines 187-203 *)
| RRemCallback                (* RemReceiveCallback, lines 205-220 *)
| RSetDropEvent (k : nat)     (* AddEventCallback, lines 222-237 *)
| RRemDropEvent               (* RemEventCallback, lines 239-254 *)
| RSetID (ids : list Z)       (* SetID, lines 279-282 *)
| RStop.                      (* Stop, lines 114-144 *)

Definition rd_step (c : rcfg) (o : rop) (r : reader) : reader * list rout :=
  match o with
  | RArrive m => rd_apply c m r
  | RRead => let '(r', x) := rd_read r in (r', [RORead x])
  | RSetCallback k => if rd_created r then (set_cb r (Some k), [ROBool true]) else (r, [ROBool false])
  | RRemCallback => if rd_created r then (set_cb r None, [ROBool true]) else (r, [ROBool false])
  | RSetDropEvent k => if rd_created r then (set_dropcb r (Some k), [ROBool true]) else (r, [ROBool false])
  | RRemDropEvent => if rd_created r then (set_dropcb r None, [ROBool true]) else (r, [ROBool false])
  | RSetID ids => (set_ids r ids, [])
  | RStop =>
      if rd_created r
      then (Reader false (rd_hashes r) (rd_ids r) (rd_clocks r) (rd_count r) (rd_size r) (rd_drops r)
              None None (rd_buf r) (rd_time r) (rd_received r) (rd_act_udp r) (rd_act_shm r) (rd_act_tcp r), [ROBool true])
      else (r, [ROBool false])
  end.
Fixpoint rd_run (c : rcfg) (os : list rop) (r : reader) : reader * list (list rout) :=
  match os with
  | [] => (r, [])
  | o :: os' => let '(r1, out) := rd_step c o r in
                let '(r2, outs) := rd_run c os' r1 in (r2, out :: outs)
  end.
