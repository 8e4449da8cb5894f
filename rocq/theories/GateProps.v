(** Properties C42 and C43: registrations and messages reach exactly the publishers and
    subscribers of the process they concern. *)
From Verif Require Import Base Sample RegModel WrModel RdModel PbModel SerModel SerSpec GateModel GateSpec GateProofs.

(** ** C42 *)
(** A subscriber registration that is accepted by the process (C06) is applied exactly once to
    every publisher of the topic that exists, and nothing else happens. *)
Theorem c42_subscriber a host s pl sl : once pl -> fst (ap_apply a s) = true -> sm_cmd s = bct_reg_subscriber -> tp_tname (sm_topic s) <> [] ->
  exists ls, layers_are s ls /\
  exactly_for (fun w => holds (tp_tname (sm_topic s)) w pl)
    (fun w => [GP (PSub w (SubInfo (sm_host s) (sm_pid s) (sm_entity s)) (tp_dtype (sm_topic s)) ls)])
    (arrive a host s (gt_run pl gate0) (gt_run sl gate0)).
Proof. intros O A C N. exists (layers_of s). split; [exact (layers_ok s)|exact (arrive_sub a host s pl sl O A C N)]. Qed.
Print Assumptions c42_subscriber.
Example c42_subscriber_case :
  let ly t v e := TLayer t v e false 0 [] in
  let top := Topic 0 (str "h") [] [] (str "A") [] dt0 [ly tl_shm 2%Z true; ly tl_udp 2%Z false; ly tl_tcp 1%Z false] 0 0 0 0 0 0 0 [] in
  let s := Sample (str "e") 7 (str "h") bct_reg_subscriber [] [] process0 service0 client0 top in
  arrive (ap_new false false (str "h") 1) (str "h") s
    (gt_run [GStart; GRegister (str "A") 1; GRegister (str "B") 2; GRegister (str "A") 3; GRegister (str "A") 4; GUnregister (str "A") 3] gate0) gate0 =
  [GP (PSub 1 (SubInfo (str "h") 7 (str "e")) dt0 (SubLayers false true true)); GP (PSub 4 (SubInfo (str "h") 7 (str "e")) dt0 (SubLayers false true true))].
Proof. vm_compute. reflexivity. Qed.

(** The same for the withdrawal of a subscriber. *)
Theorem c42_subscriber_gone a host s pl sl : once pl -> fst (ap_apply a s) = true -> sm_cmd s = bct_unreg_subscriber -> tp_tname (sm_topic s) <> [] ->
  exactly_for (fun w => holds (tp_tname (sm_topic s)) w pl)
    (fun w => [GP (PUnsub w (SubInfo (sm_host s) (sm_pid s) (sm_entity s)))]) (arrive a host s (gt_run pl gate0) (gt_run sl gate0)).
Proof. exact (arrive_unsub a host s pl sl). Qed.
Print Assumptions c42_subscriber_gone.
Example c42_subscriber_gone_case :
  let top := Topic 0 (str "h") [] [] (str "A") [] dt0 [] 0 0 0 0 0 0 0 [] in
  let s := Sample (str "e") 7 (str "h") bct_unreg_subscriber [] [] process0 service0 client0 top in
  arrive (ap_new false false (str "h") 1) (str "h") s (gt_run [GStart; GRegister (str "A") 1; GRegister (str "B") 2] gate0) gate0 =
  [GP (PUnsub 1 (SubInfo (str "h") 7 (str "e")))].
Proof. vm_compute. reflexivity. Qed.

(** A publisher registration is applied to every subscriber of the topic that exists: the
    parameters of every layer once, and the publication exactly if the publisher already knows
    of a subscriber on the side of this process. *)
Theorem c42_publisher a host s pl sl : once sl -> fst (ap_apply a s) = true -> sm_cmd s = bct_reg_publisher -> tp_tname (sm_topic s) <> [] ->
  exists ls (known : bool), layers_are s ls /\ (known = true <-> is_confirmed host s) /\
  exactly_for (fun r => holds (tp_tname (sm_topic s)) r sl)
    (fun r => map (fun y => GS (SPar r (SubInfo (sm_host s) (sm_pid s) (sm_entity s)) y)) (tp_layers (sm_topic s)) ++
              (if known then [GS (SPub r (SubInfo (sm_host s) (sm_pid s) (sm_entity s)) (tp_dtype (sm_topic s)) ls)] else []))
    (arrive a host s (gt_run pl gate0) (gt_run sl gate0)).
Proof. intros O A C N. destruct (arrive_pub a host s pl sl O A C N) as (k & K & E). exists (layers_of s), k. split; [exact (layers_ok s)|]. split; [exact K|exact E]. Qed.
Print Assumptions c42_publisher.
Example c42_publisher_case :
  let ly := TLayer tl_tcp 2 true false 500 [] in
  let top loc := Topic 0 (str "h") [] [] (str "A") [] dt0 [ly] 0 loc 5 0 0 0 0 [] in
  let s loc := Sample (str "e") 7 (str "h") bct_reg_publisher [] [] process0 service0 client0 (top loc) in
  let sg := gt_run [GStart; GRegister (str "A") 1; GStop; GStart; GRegister (str "A") 2] gate0 in
  let i := SubInfo (str "h") 7 (str "e") in
  arrive (ap_new false false (str "h") 1) (str "h") (s 0%Z) gate0 sg = [GS (SPar 2 i ly)] /\
  arrive (ap_new false false (str "h") 1) (str "h") (s 1%Z) gate0 sg = [GS (SPar 2 i ly); GS (SPub 2 i dt0 (SubLayers false false true))].
Proof. vm_compute. split; reflexivity. Qed.

(** The withdrawal of a publisher. *)
Theorem c42_publisher_gone a host s pl sl : once sl -> fst (ap_apply a s) = true -> sm_cmd s = bct_unreg_publisher -> tp_tname (sm_topic s) <> [] ->
  exactly_for (fun r => holds (tp_tname (sm_topic s)) r sl)
    (fun r => [GS (SUnpub r (SubInfo (sm_host s) (sm_pid s) (sm_entity s)))]) (arrive a host s (gt_run pl gate0) (gt_run sl gate0)).
Proof. exact (arrive_unpub a host s pl sl). Qed.
Print Assumptions c42_publisher_gone.
Example c42_publisher_gone_case :
  let top := Topic 0 (str "h") [] [] (str "A") [] dt0 [] 0 0 0 0 0 0 0 [] in
  let s := Sample (str "e") 7 (str "h") bct_unreg_publisher [] [] process0 service0 client0 top in
  arrive (ap_new false false (str "h") 1) (str "h") s gate0 (gt_run [GStart; GRegister (str "A") 1; GRegister (str "A") 2; GUnregister (str "A") 1] gate0) =
  [GS (SUnpub 2 (SubInfo (str "h") 7 (str "e")))].
Proof. vm_compute. reflexivity. Qed.

(** Nothing happens to any publisher or subscriber because of other samples, rejected ones and
    samples without a topic name (a publisher or subscriber has a name). *)
Theorem c42_nothing_else a host s pg sg :
  fst (ap_apply a s) = false \/ (is_pub_cmd (sm_cmd s) = false /\ is_sub_cmd (sm_cmd s) = false) \/ tp_tname (sm_topic s) = [] ->
  arrive a host s pg sg = [].
Proof. exact (arrive_none a host s pg sg). Qed.
Print Assumptions c42_nothing_else.
Example c42_nothing_else_case :
  let top := Topic 0 (str "other") [] [] (str "A") [] dt0 [] 0 0 0 0 0 0 0 [] in
  let s := Sample (str "e") 7 (str "other") bct_reg_subscriber [] [] process0 service0 client0 top in
  let pg := gt_run [GStart; GRegister (str "A") 1] gate0 in
  arrive (ap_new false false (str "h") 1) (str "h") s pg gate0 = [] /\ length (arrive (ap_new true false (str "h") 1) (str "h") s pg gate0) = 1.
Proof. vm_compute. split; reflexivity. Qed.

(** The registrations a process sends are those of its existing publishers and subscribers,
    each once. *)
Theorem c42_announced l o : once l -> NoDup (gt_all (gt_run l gate0)) /\ (In o (gt_all (gt_run l gate0)) <-> exists n, holds n o l).
Proof. intros O. split; [exact (all_nodup l O)|exact (all_holds l o O)]. Qed.
Print Assumptions c42_announced.
Example c42_announced_case : gt_all (gt_run [GStart; GRegister (str "A") 1; GRegister (str "A") 2; GUnregister (str "A") 1; GRegister (str "B") 3] gate0) = [2; 3].
Proof. vm_compute. reflexivity. Qed.

(** ** C43 *)
(** A finished delivery has offered the message exactly once to each subscriber of the topic
    that existed when it began, and to no other, whatever else happened meanwhile. *)
Theorem c43_every_subscriber th l m done : once (gate_ops l) -> aget th (sy_del (final l)) = Some (Delivery m [] done) ->
  NoDup (offered th l) /\ exists a b n, l = a ++ OTake th n m :: b /\ forall r, In r (offered th l) <-> holds n r (gate_ops a).
Proof. exact (delivered_all th l m done). Qed.
Print Assumptions c43_every_subscriber.
Example c43_every_subscriber_case :
  let c := RCfg true true true false in
  let m := Msg (str "e") [1; 2]%Z 0 1 5 77 tl_udp in
  let l := [OGate GStart; OCreate 1 c; OGate (GRegister (str "A") 1); OCreate 2 c; OGate (GRegister (str "A") 2); OCreate 3 c; OGate (GRegister (str "B") 3);
            OTake 9 (str "A") m; OApply 9; OGate (GUnregister (str "A") 2); ORd 2 RStop; OApply 9] in
  offered 9 l = [1; 2] /\ aget 9 (sy_del (final l)) = Some (Delivery m [] [(1, 2); (2, 0)]).
Proof. vm_compute. split; reflexivity. Qed.

(** No delivery offers a message twice or to others. *)
Theorem c43_at_most_once th l m todo done : once (gate_ops l) -> aget th (sy_del (final l)) = Some (Delivery m todo done) ->
  NoDup (offered th l) /\ exists a b n, l = a ++ OTake th n m :: b /\ forall r, In r (offered th l) -> holds n r (gate_ops a).
Proof. exact (offered_only th l m todo done). Qed.
Print Assumptions c43_at_most_once.
Example c43_at_most_once_case :
  let c := RCfg true true true false in
  let m := Msg (str "e") [1; 2]%Z 0 1 5 77 tl_udp in
  let l := [OGate GStart; OCreate 1 c; OGate (GRegister (str "A") 1); OCreate 2 c; OGate (GRegister (str "A") 2); OTake 9 (str "A") m; OApply 9] in
  offered 9 l = [1] /\ aget 9 (sy_del (final l)) = Some (Delivery m [2] [(1, 2)]).
Proof. vm_compute. split; reflexivity. Qed.

(** Every delivery can be finished by its thread alone, as many calls as readers are left. *)
Theorem c43_finishes th l m todo done : constructed l -> aget th (sy_del (final l)) = Some (Delivery m todo done) ->
  exists done', aget th (sy_del (final (l ++ repeat (OApply th) (length todo)))) = Some (Delivery m [] done').
Proof. exact (finished th l m todo done). Qed.
Print Assumptions c43_finishes.
Example c43_finishes_case :
  let c := RCfg true true true false in
  let m := Msg (str "e") [1; 2]%Z 0 1 5 77 tl_udp in
  let l := [OGate GStart; OCreate 1 c; OGate (GRegister (str "A") 1); OCreate 2 c; OGate (GRegister (str "A") 2); OTake 9 (str "A") m; OGate GStop] in
  aget 9 (sy_del (final l)) = Some (Delivery m [1; 2] []) /\ aget 9 (sy_del (final (l ++ [OApply 9; OApply 9]))) = Some (Delivery m [] [(1, 0); (2, 0)]).
Proof. vm_compute. split; reflexivity. Qed.

(** A reader of the process behaves as the reader alone (C07 - C13) under what it is asked, ... *)
Theorem c43_reader a r c b : aget r (sy_readers (final a)) = None ->
  aget r (sy_readers (final (a ++ OCreate r c :: b))) = Some (c, fst (rd_run c (asked r b (final (a ++ [OCreate r c]))) rd_new)).
Proof. exact (reader_from a r c b). Qed.
Print Assumptions c43_reader.
(** ... and it gets only messages of a topic it was registered for. *)
Theorem c43_own_topic a r c b m : once (gate_ops (a ++ OCreate r c :: b)) -> In (RArrive m) (asked r b (final (a ++ [OCreate r c]))) ->
  exists th n x y, a ++ OCreate r c :: b = x ++ OTake th n m :: y /\ holds n r (gate_ops x).
Proof. exact (asked_topic a r c b m). Qed.
Print Assumptions c43_own_topic.
Example c43_reader_case :
  let c := RCfg true true true false in
  let m := Msg (str "e") [1; 2]%Z 0 1 5 77 tl_udp in
  let b := [OGate (GRegister (str "A") 1); ORd 1 (RSetCallback 4); OTake 9 (str "A") m; OTake 8 (str "B") m; OApply 9; OApply 8; ORd 1 RStop] in
  asked 1 b (final [OGate GStart; OCreate 1 c]) = [RSetCallback 4; RArrive m; RStop].
Proof. vm_compute. reflexivity. Qed.

(** A destroyed reader ignores a message that is still offered to it. *)
Theorem c43_stopped c m x : rd_created x = false -> rd_apply c m x = (x, [ROReturn 0]).
Proof. exact (stopped_ignores c m x). Qed.
Print Assumptions c43_stopped.
Example c43_stopped_case : rd_created (fst (rd_step (RCfg true true true false) RStop rd_new)) = false.
Proof. reflexivity. Qed.

(** The reported result is that of the subscriber called last. *)
Theorem c43_result_partial d :
  (result_of d = true <-> exists r n rest, dl_done d = rest ++ [(r, n)] /\ 0 < n) /\
  (dl_done d <> [] -> (forall r n, In (r, n) (dl_done d) -> 0 < n) -> result_of d = true) /\
  ((forall r n, In (r, n) (dl_done d) -> n = 0) -> result_of d = false).
Proof. split; [exact (result_last d)|]. split; [exact (result_all d)|exact (result_none d)]. Qed.
Print Assumptions c43_result_partial.
Example c43_result_case : result_of (Delivery (Msg [] [] 0 0 0 0 tl_udp) [] [(1, 0); (2, 3)]) = true.
Proof. reflexivity. Qed.
(** So it is not whether any subscriber accepted the message: here the first one did, the
    second one listens to another id. *)
Theorem c43_result_refuted : exists l m done, once (gate_ops l) /\ constructed l /\ aget 9 (sy_del (final l)) = Some (Delivery m [] done) /\
  In (1, 2) done /\ In (1, [ROCallback 4 m; ROReturn 2]) (concat (snd (sy_run l sys0))) /\ result_of (Delivery m [] done) = false.
Proof.
  exists [OCreate 1 (RCfg true true true false); OCreate 2 (RCfg true true true false); OGate GStart; OGate (GRegister (str "A") 1); OGate (GRegister (str "A") 2);
          ORd 1 (RSetCallback 4); ORd 2 (RSetID [5%Z]); OTake 9 (str "A") (Msg (str "e") [1; 2]%Z 0 1 5 77 tl_udp); OApply 9; OApply 9].
  eexists _, _. split; [|split; [|split; [vm_compute; reflexivity|]]].
  - vm_compute. repeat constructor; cbn; intuition congruence.
  - intros a b n r E. do 3 (destruct a as [|? a]; [discriminate|]). injection E as <- <- <- E. exists (RCfg true true true false).
    destruct a as [|? a]; [injection E as <- <- <-; now left|]. injection E as <- E. destruct a as [|? a]; [injection E as <- <- <-; right; now left|].
    injection E as <- E. repeat (destruct a as [|? a]; [discriminate|injection E as <- E]). destruct a; discriminate.
  - split; [now left|]. split; [|reflexivity]. vm_compute. intuition.
Qed.
Print Assumptions c43_result_refuted.

(** A serialized sample is delivered as it was sent, C39; nothing is delivered for any other
    command. *)
Theorem c43_serialized layer p : wf_psample p -> (len (ser_payload p) < 2 ^ 32)%Z -> ps_cmd p = bct_set_sample ->
  message_of layer (ser_payload p) =
  Some (ps_tname p, Msg (ps_tid p) (ps_payload p) (ps_id p) (ps_clock p) (ps_time p) (ps_hash p mod 2 ^ 64)%Z layer).
Proof. exact (message_ok layer p). Qed.
Print Assumptions c43_serialized.
Theorem c43_serialized_only layer bs x : message_of layer bs = Some x -> exists p, de_payload bs = Ok p /\ ps_cmd p = bct_set_sample.
Proof. exact (message_other layer bs x). Qed.
Print Assumptions c43_serialized_only.
Example c43_serialized_case :
  message_of tl_udp (ser_payload (PSample bct_set_sample (str "h") (str "e") (str "A") 1 2 3 (-4) 2 [8; 9]%Z [])) =
  Some (str "A", Msg (str "e") [8; 9]%Z 1 2 3 (2 ^ 64 - 4)%Z tl_udp) /\
  message_of tl_udp (ser_payload (PSample bct_none (str "h") (str "e") (str "A") 1 2 3 (-4) 2 [8; 9]%Z [])) = None.
Proof. vm_compute. split; reflexivity. Qed.
