(** Model of the sending side of a publisher: CPublisher::Send
    (ecal/core/src/pubsub/ecal_publisher.cpp, lines 151-181) and CDataWriter
    (ecal/core/src/readwrite/ecal_writer.cpp).

    A send is split into its begin (lines 168-200) and one step for each transport
    layer, so that the registration thread can start a layer in between, as the code
    allows: no mutex protects the layer writers.  The layer writers themselves are
    modelled elsewhere; here the outcome of each is an argument.  Stop is not modelled
    here.  std::hash<long long> is taken to be the identity on 64 bits (libstdc++), the
    string hash of the topic id is a configuration value. *)
From Verif Require Import Base Sample ExpMapModel ConnModel.

Record wcfg := WCfg {
  wc_host : text;                       (* m_host_name *)
  wc_udp : bool; wc_shm : bool; wc_tcp : bool;   (* m_config.layer.*.enable *)
  wc_prio_local : list ltype;           (* m_config.layer_priority_local *)
  wc_prio_remote : list ltype;          (* m_config.layer_priority_remote *)
  wc_zero_copy : bool;                  (* m_config.layer.shm.zero_copy_mode *)
  wc_tid_hash : Z;                      (* std::hash<std::string>()(m_topic_id) *)
  wc_timeout : Z }.                     (* registration timeout *)

(** SSubscriptionInfo and the layers the subscriber can read. *)
Record subinfo := SubInfo { si_host : text; si_pid : Z; si_tid : text }.
Global Instance subinfo_eqdec : EqDec subinfo.
Proof. intros [a b c] [d e f]. destruct (eq_dec a d), (eq_dec b e), (eq_dec c f); subst; [left; reflexivity|..]; right; congruence. Defined.
Record sublayers := SubLayers { sl_udp : bool; sl_shm : bool; sl_tcp : bool }.

(** hash<SSndHash>, lines 56-66, on 64 bit words. *)
Definition two64 : Z := (2 ^ 64)%Z.
Definition snd_hash (h1 clock : Z) : Z := Z.lxor h1 (Z.modulo (Z.shiftl clock 1) two64).

(** A send on its way through the layers: what Write holds in local variables. *)
Record pend := Pend { pe_payload : list Z; pe_time : Z; pe_hash : Z; pe_allow : bool; pe_stage : nat; pe_written : bool }.

Record writer := Writer {
  w_user_id : Z;                        (* CPublisher::m_id *)
  w_id : Z; w_clock : Z; w_size : nat;  (* m_id, m_clock, m_topic_size *)
  w_udp : bool; w_shm : bool; w_tcp : bool;      (* m_writer_* exist, m_layers.*.write_enabled *)
  w_buf : list Z;                       (* m_payload_buffer *)
  w_pend : option pend;
  w_conn : conn subinfo sublayers }.    (* m_connected, m_sub_map, events *)

Definition w_new (c : wcfg) : writer := Writer 0 0 0 0 false false false [] None (conn_new (wc_timeout c)).

(** What is handed to a layer: SWriterAttr and the bytes; None if bytes outside the
    payload buffer are read. *)
Record tx := Tx { tx_layer : ltype; tx_id : Z; tx_clock : Z; tx_time : Z; tx_hash : Z; tx_len : nat; tx_bytes : option (list Z) }.
Inductive wout := WTx (t : tx) | WRet (n : nat).

Definition read_buf (len : nat) (b : list Z) : option (list Z) :=
  if Nat.leb len (length b) then Some (firstn len b) else None.

(** CPublisher::Send lines 157-174 and the beginning of Write: without a subscription
    only the counter is refreshed (line 531); otherwise line 173 decides about zero
    copy, lines 186-190 fill the buffer, PrepareWrite (896) sets id, clock, hash, size. *)
Definition w_begin (p : list Z) (time : Z) (c : wcfg) (w : writer) : writer * list wout :=
  match w_pend w with
  | Some _ => (w, [])
  | None =>
      match em_contents (cn_map (w_conn w)) with
      | [] => (Writer (w_user_id w) (w_id w) (w_clock w + 1)%Z (w_size w) (w_udp w) (w_shm w) (w_tcp w) (w_buf w) None (w_conn w),
               [WRet (length p)])
      | _ =>
          let allow := wc_zero_copy c && negb (w_udp w) && negb (w_tcp w) in
          let clock := (w_clock w + 1)%Z in
          (Writer (w_user_id w) (w_user_id w) clock (length p) (w_udp w) (w_shm w) (w_tcp w)
                  (if allow then w_buf w else p)
                  (Some (Pend p time (snd_hash (wc_tid_hash c) clock) allow 0 false)) (w_conn w), [])
      end
  end.

(** The next part of Write: SHM (lines 205-260), UDP (262-306), TCP (308-349) and the
    return (351-353).  [ok] is the result of the layer's Write. *)
Definition set_pend (w : writer) (pe : option pend) : writer :=
  Writer (w_user_id w) (w_id w) (w_clock w) (w_size w) (w_udp w) (w_shm w) (w_tcp w) (w_buf w) pe (w_conn w).
Definition w_next (ok : bool) (w : writer) : writer * list wout :=
  match w_pend w with
  | None => (w, [])
  | Some pe =>
      let len := length (pe_payload pe) in
      let mk l b := Tx l (w_id w) (w_clock w) (pe_time pe) (pe_hash pe) len b in
      let '(active, t) :=
        match pe_stage pe with
        | 0 => (w_shm w, mk tl_shm (if pe_allow pe then Some (pe_payload pe) else Some (w_buf w)))
        | 1 => (w_udp w, mk tl_udp (read_buf len (w_buf w)))
        | _ => (w_tcp w, mk tl_tcp (read_buf len (w_buf w)))
        end in
      let written := pe_written pe || (active && ok) in
      let out := if active then [WTx t] else [] in
      match pe_stage pe with
      | 0 | 1 => (set_pend w (Some (Pend (pe_payload pe) (pe_time pe) (pe_hash pe) (pe_allow pe) (S (pe_stage pe)) written)), out)
      | _ => (set_pend w None, out ++ [WRet (if written then len else 0)])
      end
  end.

(** DetermineTransportLayer2Start, lines 931-949. *)
Definition pub_layers (c : wcfg) : list ltype :=
  (if wc_udp c then [tl_udp] else []) ++ (if wc_shm c then [tl_shm] else []) ++ (if wc_tcp c then [tl_tcp] else []).
Definition sub_layers (s : sublayers) : list ltype :=
  (if sl_udp s then [tl_udp] else []) ++ (if sl_shm s then [tl_shm] else []) ++ (if sl_tcp s then [tl_tcp] else []).
Definition determine_layer (c : wcfg) (pl sl : list ltype) (same_host : bool) : ltype :=
  match find (fun l => existsb (eqb l) pl && existsb (eqb l) sl) (if same_host then wc_prio_local c else wc_prio_remote c) with
  | Some l => l
  | None => tl_none
  end.

(** ApplySubscription, lines 433-504, with the layer starts of lines 791-867. *)
Definition w_sub (now : Z) (k : subinfo) (s : sublayers) (c : wcfg) (w : writer) : option writer :=
  let l := determine_layer c (pub_layers c) (sub_layers s) (eqb (wc_host c) (si_host k)) in
  match micro_run (SubLayers false false false) (whole (WApply now k s)) (w_conn w) with
  | Some cn => Some (Writer (w_user_id w) (w_id w) (w_clock w) (w_size w)
                      (w_udp w || eqb l tl_udp) (w_shm w || eqb l tl_shm) (w_tcp w || eqb l tl_tcp)
                      (w_buf w) (w_pend w) cn)
  | None => None
  end.

Inductive wrop :=
| OBegin (p : list Z) (time : Z)
| ONext (ok : bool)
| OSub (now : Z) (k : subinfo) (s : sublayers)
| OUnsub (k : subinfo)          (* RemoveSubscription, lines 506-529 *)
| OCheck (now : Z)              (* GetRegistration, line 605 *)
| OSetID (id : Z).              (* CPublisher::SetID, line 145 *)

Definition set_conn (w : writer) cn : writer :=
  Writer (w_user_id w) (w_id w) (w_clock w) (w_size w) (w_udp w) (w_shm w) (w_tcp w) (w_buf w) (w_pend w) cn.
(** None is undefined behaviour of the expiring map. *)
Definition w_step (c : wcfg) (o : wrop) (w : writer) : option (writer * list wout) :=
  match o with
  | OBegin p time => Some (w_begin p time c w)
  | ONext ok => Some (w_next ok w)
  | OSub now k s => match w_sub now k s c w with Some w' => Some (w', []) | None => None end
  | OUnsub k => match micro_run (SubLayers false false false) (whole (WRemove k)) (w_conn w) with Some cn => Some (set_conn w cn, []) | None => None end
  | OCheck now => match micro_run (SubLayers false false false) (whole (WCheck now)) (w_conn w) with Some cn => Some (set_conn w cn, []) | None => None end
  | OSetID id => Some (Writer id (w_id w) (w_clock w) (w_size w) (w_udp w) (w_shm w) (w_tcp w) (w_buf w) (w_pend w) (w_conn w), [])
  end.
Fixpoint w_run (c : wcfg) (os : list wrop) (w : writer) : option (writer * list wout) :=
  match os with
  | [] => Some (w, [])
  | o :: os' =>
      match w_step c o w with
      | Some (w1, out) => match w_run c os' w1 with Some (w2, outs) => Some (w2, out ++ outs) | None => None end
      | None => None
      end
  end.

(** Whole sends, not overlapped by other operations. *)
Inductive wcall := CSend (p : list Z) (time : Z) (okS okU okT : bool) | CSub (now : Z) (k : subinfo) (s : sublayers)
                 | CUnsub (k : subinfo) | CCheck (now : Z) | CSetID (id : Z).
Definition wcall_ops (o : wcall) : list wrop :=
  match o with
  | CSend p time a b d => [OBegin p time; ONext a; ONext b; ONext d]
  | CSub now k s => [OSub now k s] | CUnsub k => [OUnsub k] | CCheck now => [OCheck now] | CSetID id => [OSetID id]
  end.
Definition wcalls (os : list wcall) : list wrop := flat_map wcall_ops os.

(** GetRegistrationSample, lines 692-706: local and external connections. *)
Definition w_connections (c : wcfg) (w : writer) : nat * nat :=
  let all := em_contents (cn_map (w_conn w)) in
  let loc := length (filter (fun p => eqb (si_host (fst p)) (wc_host c)) all) in
  (loc, length all - loc).
