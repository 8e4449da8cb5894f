(** Model of the publisher and the subscriber gate of a process: the tables of local
    publishers and subscribers by topic name, and the distribution of registrations and
    messages to them.
    ecal/core/src/pubsub/ecal_pubgate.cpp, ecal_subgate.cpp; Create and Destroy of
    ecal_publisher.cpp 73-129 and ecal_subscriber.cpp 64-123.

    Writers and readers are named by numbers (the identity of the shared_ptr).  Every
    operation runs under the lock the code takes, so operations are atomic. *)
From Verif Require Import Base Sample RegModel WrModel RdModel PbModel SerModel.

(** ** The table *)
(** m_created and the multimap; entries of the same name keep the order of insertion, as in
    std::multimap.  The order of different names is not modelled. *)
Record gate := Gate { gt_on : bool; gt_map : list (text * nat) }.
Definition gate0 : gate := Gate false [].
(** Start: ecal_pubgate.cpp 51-55, ecal_subgate.cpp 52-56. *)
Definition gt_start (g : gate) : gate := if gt_on g then g else Gate true (gt_map g).
(** Stop: ecal_pubgate.cpp 57-70, ecal_subgate.cpp 58-71; with the objects that are stopped. *)
Definition gt_stop (g : gate) : gate * list nat := if gt_on g then (Gate false [], map snd (gt_map g)) else (g, []).
(** Register: ecal_pubgate.cpp 82-91, ecal_subgate.cpp 73-82. *)
Definition gt_register (n : text) (o : nat) (g : gate) : gate * bool :=
  if gt_on g then (Gate true (gt_map g ++ [(n, o)]), true) else (g, false).
(** Unregister: ecal_pubgate.cpp 93-111, ecal_subgate.cpp 84-102: the first entry is erased. *)
Fixpoint erase1 (n : text) (o : nat) (l : list (text * nat)) : list (text * nat) * bool :=
  match l with
  | [] => ([], false)
  | e :: l' => if eqb e (n, o) then (l', true) else let (r, b) := erase1 n o l' in (e :: r, b)
  end.
Definition gt_unregister (n : text) (o : nat) (g : gate) : gate * bool :=
  if gt_on g then let (l, b) := erase1 n o (gt_map g) in (Gate true l, b) else (g, false).
(** equal_range *)
Definition gt_range (n : text) (g : gate) : list nat := map snd (filter (fun e => eqb (fst e) n) (gt_map g)).

Inductive gop := GStart | GStop | GRegister (n : text) (o : nat) | GUnregister (n : text) (o : nat).
Definition gt_step (g : gate) (x : gop) : gate :=
  match x with
  | GStart => gt_start g | GStop => fst (gt_stop g)
  | GRegister n o => fst (gt_register n o g) | GUnregister n o => fst (gt_unregister n o g)
  end.
Definition gt_run (l : list gop) (g : gate) : gate := fold_left gt_step l g.

(** ** Registrations *)
(** SSubscriptionInfo / SPublicationInfo out of a sample. *)
Definition info_of (s : sample) : subinfo := SubInfo (sm_host s) (sm_pid s) (sm_entity s).
(** Layer states: ecal_pubgate.cpp 131-153, ecal_subgate.cpp 231-253. *)
Definition add_layer (a : sublayers) (y : tlayer) : sublayers :=
  if (ly_enabled y || (ly_version y <? 2)%Z)%bool then
    match ly_type y with
    | tl_udp => SubLayers true (sl_shm a) (sl_tcp a)
    | tl_shm => SubLayers (sl_udp a) true (sl_tcp a)
    | tl_tcp => SubLayers (sl_udp a) (sl_shm a) true
    | _ => a
    end
  else a.
Definition layers_of (s : sample) : sublayers := fold_left add_layer (tp_layers (sm_topic s)) (SubLayers false false false).

(** Calls of writers and readers. *)
Inductive pcall :=
| PSub (w : nat) (i : subinfo) (d : datatype) (l : sublayers)     (* CDataWriter::ApplySubscription *)
| PUnsub (w : nat) (i : subinfo).                                 (* CDataWriter::RemoveSubscription *)
Inductive scall :=
| SPar (r : nat) (i : subinfo) (y : tlayer)                       (* CDataReader::ApplyLayerParameter *)
| SPub (r : nat) (i : subinfo) (d : datatype) (l : sublayers)     (* CDataReader::ApplyPublication *)
| SUnpub (r : nat) (i : subinfo).                                 (* CDataReader::RemovePublication *)
(** ApplySubRegistration, ecal_pubgate.cpp 113-172. *)
Definition pg_sub (s : sample) (g : gate) : list pcall :=
  let n := tp_tname (sm_topic s) in
  if (negb (gt_on g) || is_nil n)%bool then []
  else map (fun w => PSub w (info_of s) (tp_dtype (sm_topic s)) (layers_of s)) (gt_range n g).
(** ApplySubUnregistration, ecal_pubgate.cpp 174-197. *)
Definition pg_unsub (s : sample) (g : gate) : list pcall :=
  let n := tp_tname (sm_topic s) in
  if (negb (gt_on g) || is_nil n)%bool then [] else map (fun w => PUnsub w (info_of s)) (gt_range n g).
(** ApplyPubRegistration, ecal_subgate.cpp 212-274; [host] is Process::GetHostName(). *)
Definition confirmed (host : text) (s : sample) : bool :=
  let local := eqb (sm_host s) host in
  (local && (0 <? tp_conn_loc (sm_topic s))%Z) || (negb local && (0 <? tp_conn_ext (sm_topic s))%Z).
Definition sg_pub1 (host : text) (s : sample) (r : nat) : list scall :=
  map (SPar r (info_of s)) (tp_layers (sm_topic s)) ++
  (if confirmed host s then [SPub r (info_of s) (tp_dtype (sm_topic s)) (layers_of s)] else []).
Definition sg_pub (host : text) (s : sample) (g : gate) : list scall :=
  let n := tp_tname (sm_topic s) in
  if (negb (gt_on g) || is_nil n)%bool then [] else flat_map (sg_pub1 host s) (gt_range n g).
(** ApplyPubUnregistration, ecal_subgate.cpp 276-299. *)
Definition sg_unpub (s : sample) (g : gate) : list scall :=
  let n := tp_tname (sm_topic s) in
  if (negb (gt_on g) || is_nil n)%bool then [] else map (fun r => SUnpub r (info_of s)) (gt_range n g).
(** What a sample received by the process leads to: the sample applier (RegModel) with its
    consumer "gates", then the gates. *)
Inductive gcall := GP (c : pcall) | GS (c : scall).
Definition gates (host : text) (s : sample) (pg sg : gate) : list gcall :=
  match gates_apply s with
  | Some GSubReg => map GP (pg_sub s pg)
  | Some GSubUnreg => map GP (pg_unsub s pg)
  | Some GPubReg => map GS (sg_pub host s sg)
  | Some GPubUnreg => map GS (sg_unpub s sg)
  | _ => []
  end.
Definition arrive (a : applier) (host : text) (s : sample) (pg sg : gate) : list gcall :=
  if fst (ap_apply a s) then gates host s pg sg else [].
(** GetRegistrations, ecal_pubgate.cpp 199-209, ecal_subgate.cpp 301-311: whose registrations are sent. *)
Definition gt_all (g : gate) : list nat := if gt_on g then map snd (gt_map g) else [].

(** ** Messages *)
(** A delivery under way: the readers still to be called, and those called with what they
    returned, ecal_subgate.cpp 185-210 (and 110-183). *)
Record delivery := Delivery { dl_msg : msg; dl_todo : list nat; dl_done : list (nat * nat) }.
(** The subscriber side of the process: the gate, the readers with their configurations, the
    deliveries of the transport threads. *)
Record sys := Sys { sy_gate : gate; sy_readers : list (nat * (rcfg * reader)); sy_del : list (nat * delivery) }.
Definition sys0 : sys := Sys gate0 [] [].
Inductive sop :=
| OGate (x : gop)                          (* Start / Stop of the gate, registration of readers *)
| OCreate (r : nat) (c : rcfg)             (* a CDataReader is constructed *)
| ORd (r : nat) (o : rop)                  (* any call to a reader except the delivery *)
| OTake (th : nat) (n : text) (m : msg)    (* ApplySample 185-201: the readers are looked up *)
| OApply (th : nat).                       (* 204-207: the next reader is called *)
(** The return value of CDataReader::ApplySample. *)
Definition returned (outs : list rout) : nat := fold_left (fun a o => match o with ROReturn n => n | _ => a end) outs 0.
Definition stop_reader (l : list (nat * (rcfg * reader))) (r : nat) : list (nat * (rcfg * reader)) :=
  match aget r l with Some (c, x) => aset r (c, fst (rd_step c RStop x)) l | None => l end.
(** Every step with what the user sees of the readers. *)
Definition sy_step (s : sys) (o : sop) : sys * list (nat * list rout) :=
  match o with
  | OGate x =>
      (Sys (gt_step (sy_gate s) x)
           (match x with GStop => fold_left stop_reader (snd (gt_stop (sy_gate s))) (sy_readers s) | _ => sy_readers s end)
           (sy_del s), [])
  | OCreate r c => match aget r (sy_readers s) with
                   | Some _ => (s, [])
                   | None => (Sys (sy_gate s) (aset r (c, rd_new) (sy_readers s)) (sy_del s), [])
                   end
  | ORd r o => match aget r (sy_readers s), o with
               | Some (c, x), RArrive _ => (s, [])
               | Some (c, x), _ => let (x', out) := rd_step c o x in (Sys (sy_gate s) (aset r (c, x') (sy_readers s)) (sy_del s), [(r, out)])
               | None, _ => (s, [])
               end
  | OTake th n m => match aget th (sy_del s) with
                    | Some _ => (s, [])
                    | None => if gt_on (sy_gate s)
                              then (Sys (sy_gate s) (sy_readers s) (aset th (Delivery m (gt_range n (sy_gate s)) []) (sy_del s)), [])
                              else (s, [])
                    end
  | OApply th => match aget th (sy_del s) with
                 | Some (Delivery m (r :: todo) done) =>
                     match aget r (sy_readers s) with
                     | Some (c, x) =>
                         let (x', out) := rd_apply c m x in
                         (Sys (sy_gate s) (aset r (c, x') (sy_readers s)) (aset th (Delivery m todo (done ++ [(r, returned out)])) (sy_del s)), [(r, out)])
                     | None => (s, [])
                     end
                 | _ => (s, [])
                 end
  end.
Fixpoint sy_run (l : list sop) (s : sys) : sys * list (list (nat * list rout)) :=
  match l with
  | [] => (s, [])
  | o :: l' => let (s1, out) := sy_step s o in let (s2, outs) := sy_run l' s1 in (s2, out :: outs)
  end.
(** applied_size > 0, with applied_size of the last reader called (205-209). *)
Definition result_of (d : delivery) : bool := (0 <? last (map snd (dl_done d)) 0)%nat.

(** ApplySample of a serialized sample, 110-183: the topic and the message that is delivered.
    The hash is converted to size_t. *)
Definition message_of (layer : ltype) (bs : list Z) : option (text * msg) :=
  match de_payload bs with
  | Ok p => match ps_cmd p with
            | bct_set_sample => Some (ps_tname p, Msg (ps_tid p) (ps_payload p) (ps_id p) (ps_clock p) (ps_time p) (ps_hash p mod 2 ^ 64)%Z layer)
            | _ => None
            end
  | _ => None
  end.
