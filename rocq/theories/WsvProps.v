(** C120: services as a whole. *)
From Verif Require Import Base Sample ExpMapModel PbModel PbSpec SerModel SerSpec SrvModel SrvSpec CliModel CliSpec FrmModel RpcModel RpcSpec SdsModel WsvModel WsvSpec WsvEndProofs WsvWayProofs WsvExProofs.
From Verif Require SdsSpec.

(** Two clients of two processes call one server at the same time; the runs of the examples. *)
Example c120_run : wreach w_all (the_s w_all) /\ wsane w_all /\ wfits (the_s w_all) /\ no_reuse (the_s w_all).
Proof. exact w_all_ok. Qed.

(** The discovery in this world is that of C111, and its servers are the running ones. *)
Theorem c120_discovery ops s : wreach ops s ->
  SdsSpec.dreach (ws_hist s) (ws_net s) /\ (wsane ops -> SdsSpec.dsane (ws_hist s)) /\
  (forall p x c e, SdsSpec.server (ws_net s) p x c e -> exists i t, inst s i t /\ wi_up t = true /\ wi_proc t = p /\ wi_x t = x /\ wi_cfg t = c /\ wi_facts t = SdsSpec.facts c e) /\
  (forall i t, inst s i t -> wi_up t = true -> exists e, SdsSpec.server (ws_net s) (wi_proc t) (wi_x t) (wi_cfg t) e /\ wi_facts t = SdsSpec.facts (wi_cfg t) e).
Proof. exact (discovery_lemma ops s). Qed.
Print Assumptions c120_discovery.
Example c120_discovery_case : map (fun t => (wi_proc t, wi_up t, sx_name (wi_srv t))) (ws_insts (the_s w_reuse)) = [(1, false, str "s"); (1, true, str "bank")].
Proof. vm_compute. reflexivity. Qed.

(** Every session of a client has exactly one connection state; the client sees it as failed exactly when it has failed. *)
Theorem c120_sessions ops s p x c d k z : wreach ops s -> SdsSpec.client_of (ws_net s) p x c d -> SdsSpec.session d k z ->
  exists n w, con s n w /\ co_open w = true /\ co_proc w = p /\ co_x w = x /\ co_key w = k /\ co_name w = cx_name d /\ ss_ends (co_ses w) = ss_ends z /\ ss_proto (co_ses w) = ss_proto z /\
    (ss_failed z = true <-> c_phase (x_cli (co_rpc w)) = PFailed) /\
    forall n' w', con s n' w' -> co_open w' = true -> co_proc w' = p -> co_x w' = x -> co_key w' = k -> n' = n.
Proof. exact (sessions_lemma ops s p x c d k z). Qed.
Print Assumptions c120_sessions.
(** And every open connection state belongs to a session of a client. *)
Theorem c120_open ops s n w : wreach ops s -> con s n w -> co_open w = true ->
  exists c d z, SdsSpec.client_of (ws_net s) (co_proc w) (co_x w) c d /\ SdsSpec.session d (co_key w) z /\ cx_name d = co_name w.
Proof. exact (open_lemma ops s n w). Qed.
Print Assumptions c120_open.
Example c120_sessions_case : map (fun c => (co_proc c, co_open c, failed c)) (ws_cons (the_s w_lost)) = [(2, true, true)] /\
  map (fun c => (co_proc c, co_open c, failed c)) (ws_cons (the_s w_all)) = [(2, true, false); (3, true, false)].
Proof. split; vm_compute; reflexivity. Qed.

(** What a connection is: a run of one client session against one server (C97), whose server part is all that
    happens at that server, whoever caused it.  Without a connection nothing ever reached a server. *)
Theorem c120_connection ops s n c : wreach ops s -> con s n c ->
  match co_srv c with
  | Some i => exists t, inst s i t /\ ss_proto (co_ses c) <> 0%Z /\ (exists rest, ss_ends (co_ses c) = (pc_host (wi_cfg t), sx_port1 (wi_cfg t) (wi_srv t)) :: rest) /\
      (exists xops, x_run xops (x_init (length (ss_ends (co_ses c))) (pc_host (wi_cfg t)) (sx_name (wi_srv t)) (sx_id (wi_srv t))) = Some (co_rpc c, co_tr c)) /\
      server_ops (co_tr c) = wi_ops t /\ server_events (co_tr c) = wi_evs t /\ x_server (co_rpc c) = wi_state t
  | None => (exists xops r, x_run xops (x_init (length (ss_ends (co_ses c))) [] [] []) = Some (r, co_tr c) /\ x_cli r = x_cli (co_rpc c)) /\ server_ops (co_tr c) = [] /\ takes (co_tr c) = []
  end.
Proof. exact (connection_lemma ops s n c). Qed.
Print Assumptions c120_connection.
Example c120_connection_case : map co_srv (ws_cons (the_s w_all)) = [Some 0; Some 0] /\ map (fun c => map fst (takes (co_tr c))) (ws_cons (the_s w_all)) = [[1]; [0]] /\
  length (server_events (co_tr (the_con w_all 0))) = 4.
Proof. repeat split; vm_compute; reflexivity. Qed.

(** When a session is connected, it gets to the running server of the host and port that a server of the session's
    service once told; if that server still runs, to that one. *)
Theorem c120_connects ops s n i s' c t : wreach ops s -> wsane ops -> SdsSpec.dfits (ws_net s) -> ws_step (WConnect n i) s = Some s' -> con s n c -> inst s i t ->
  co_srv c = None /\ wi_up t = true /\ (exists c', con s' n c' /\ co_srv c' = Some i) /\
  exists a, co_key c = ca_key a /\ ca_name a = co_name c /\ ca_host a = pc_host (wi_cfg t) /\ ca_port1 a = sx_port1 (wi_cfg t) (wi_srv t) /\ (exists j u, inst s j u /\ wi_facts u = a) /\
    forall j u, inst s j u -> wi_up u = true -> wi_facts u = a -> j = i.
Proof. exact (connects_lemma ops s n i s' c t). Qed.
Print Assumptions c120_connects.
(** If no port of a host was ever given twice, a session is only ever connected to the server it was made for. *)
Theorem c120_same_server ops s n c i t : wreach ops s -> wsane ops -> SdsSpec.dfits (ws_net s) -> no_reuse s -> con s n c -> co_srv c = Some i -> inst s i t ->
  co_key c = ca_key (wi_facts t) /\ co_name c = sx_name (wi_srv t).
Proof. exact (same_server_lemma ops s n c i t). Qed.
Print Assumptions c120_same_server.
Example c120_same_server_case : co_srv (the_con w_all 1) = Some 0 /\ co_name (the_con w_all 1) = str "s" /\ sx_name (wi_srv (the_inst w_all 0)) = str "s" /\
  exists s', ws_step (WConnect 0 0) (the_s (w_setup ++ [WCall 2 0 (str "add") [1]%Z; WCon 0 (XClient (CResolve true))])) = Some s'.
Proof. split; [vm_compute; reflexivity|]. split; [vm_compute; reflexivity|]. split; [vm_compute; reflexivity|]. eexists. vm_compute. reflexivity. Qed.

(** A call asks every session it goes to, once, and no other. *)
Theorem c120_call_asks ops p x m req s s' c d : wreach ops s -> ws_step (WCall p x m req) s = Some s' -> SdsSpec.client_of (ws_net s) p x c d -> cx_name d <> [] -> m <> [] ->
  exists l, SdsSpec.calls (ws_net s') p x l /\
    (forall k z, In (k, z) l -> ss_proto z <> 0%Z -> exists n w' old j, con s' n w' /\ co_open w' = true /\ co_proc w' = p /\ co_x w' = x /\ co_key w' = k /\
       co_tr w' = old ++ [XCli (EvAccept j); XAsk j (call_bytes m req)] /\ (forall w, con s n w -> old = co_tr w) /\ ((forall w, ~ con s n w) -> old = [])) /\
    (forall n w w', con s n w -> con s' n w' -> co_tr w' = co_tr w \/ (co_open w' = true /\ co_proc w' = p /\ co_x w' = x /\ In (co_key w') (map fst l))).
Proof. exact (asked_lemma ops p x m req s s' c d). Qed.
Print Assumptions c120_call_asks.
Example c120_call_asks_case : map (fun c => co_tr c) (ws_cons (the_s (w_setup ++ [WCall 2 0 (str "add") [1]%Z]))) = [[XCli (EvAccept 0); XAsk 0 (call_bytes (str "add") [1]%Z)]].
Proof. vm_compute. reflexivity. Qed.

(** Whatever answer a client gets: a call of this very client asked for it, the server of the session took it as its
    request [q], the callback registered for the method at that time was called exactly once for it, with the
    bytes of the call, and the answer carries what the callback returned; or the method was unknown and the answer says so.
    It does not matter how many other clients call at the same time. *)
Theorem c120_answer ops s n c k bs : wreach ops s -> wfits s -> con s n c -> In (XGot k bs) (co_tr c) ->
  exists i t m req ops1 ops2, co_srv c = Some i /\ inst s i t /\ In (WCall (co_proc c) (co_x c) m req) ops /\ In (XAsk k (call_bytes m req)) (co_tr c) /\
    wi_ops t = ops1 ++ MRequest (call_bytes m req) :: ops2 /\ same_place (co_tr c) k (requests ops1) /\
    let q := requests ops1 in
    let l := book ops1 m in
    if ld_known l then
      exists cb resp ret, ld_cb l = Some cb /\ returns ops2 q = [(resp, ret)] /\
        about q (wi_evs t) = [VCall q cb m (fst (ld_types l)) (snd (ld_types l)) req; VReply q bs] /\
        (i64 ret -> de_response bs = Ok (say_executed (pc_host (wi_cfg t)) (sx_name (wi_srv t)) (sx_id (wi_srv t)) m resp ret))
    else about q (wi_evs t) = [VReply q bs] /\ de_response bs = Ok (say_unknown (pc_host (wi_cfg t)) (sx_name (wi_srv t)) (sx_id (wi_srv t)) m).
Proof. exact (answer_all ops s n c k bs). Qed.
Print Assumptions c120_answer.
(** The server takes the call of the second client first and executes the other one first: each gets its own answer. *)
Example c120_answer_case : map (fun c => gots (co_tr c)) (ws_cons (the_s w_all)) =
  [[(0, ser_response (w_says (str "add") [7]%Z 5))]; [(0, ser_response (w_says (str "add") [8]%Z 6))]] /\
  map (fun e => match e with VCall q _ _ _ _ req => Some (q, req) | _ => None end) (wi_evs (the_inst w_all 0)) = [Some (1, [1]%Z); None; Some (0, [2]%Z); None].
Proof. split; vm_compute; reflexivity. Qed.

(** No server executes what nobody asked for: each of its requests is a call of exactly one session (or came from outside). *)
Theorem c120_no_phantom ops s i t ops1 bs ops2 : wreach ops s -> wfits s -> inst s i t -> wi_ops t = ops1 ++ MRequest bs :: ops2 ->
  In (WOld i bs) ops \/
  exists n c k m req, con s n c /\ co_srv c = Some i /\ In (WCall (co_proc c) (co_x c) m req) ops /\ bs = call_bytes m req /\ In (XAsk k bs) (co_tr c) /\ same_place (co_tr c) k (requests ops1) /\
    forall n' c' b', con s n' c' -> co_srv c' = Some i -> In (XTake (requests ops1) b') (co_tr c') -> n' = n.
Proof. exact (phantom_lemma ops s i t ops1 bs ops2). Qed.
Print Assumptions c120_no_phantom.
(** And no call of a session is two requests of the server. *)
Theorem c120_at_most_once ops s n c q b b' : wreach ops s -> wfits s -> con s n c -> same_place (co_tr c) q b -> same_place (co_tr c) q b' -> b = b'.
Proof. exact (twice_lemma ops s n c q b b'). Qed.
Print Assumptions c120_at_most_once.
Example c120_at_most_once_case : requests (wi_ops (the_inst w_all 0)) = 2 /\ same_place (co_tr (the_con w_all 0)) 0 1 /\ same_place (co_tr (the_con w_all 1)) 0 0.
Proof. split; [vm_compute; reflexivity|]. split; exists 0; split; vm_compute; reflexivity. Qed.

(** An awaited call can always still be answered: some steps without any failure, new call or change of the methods
    bring the answer, whatever everybody else is doing. *)
Theorem c120_possible ops s n c i t k : wreach ops s -> wfits s -> con s n c -> co_srv c = Some i -> inst s i t -> awaited k (co_rpc c) ->
  answerable (pc_host (wi_cfg t)) (sx_name (wi_srv t)) (sx_id (wi_srv t)) k (co_tr c) ->
  exists more s' c' bs, forallb wsmooth more = true /\ ws_run more s = Some s' /\ con s' n c' /\ In (XGot k bs) (co_tr c').
Proof. exact (possible_lemma ops s n c i t k). Qed.
Print Assumptions c120_possible.
Example c120_possible_case : wreach w_mid (the_s w_mid) /\ wfits (the_s w_mid) /\ con (the_s w_mid) 0 (the_con w_mid 0) /\ co_srv (the_con w_mid 0) = Some 0 /\ inst (the_s w_mid) 0 (the_inst w_mid 0) /\
  awaited 0 (co_rpc (the_con w_mid 0)) /\
  answerable (pc_host (wi_cfg (the_inst w_mid 0))) (sx_name (wi_srv (the_inst w_mid 0))) (sx_id (wi_srv (the_inst w_mid 0))) 0 (co_tr (the_con w_mid 0)) /\ gots (co_tr (the_con w_mid 0)) = [].
Proof. exact w_mid_ok. Qed.

(** A session that is not connected to a server has neither begun the handshake nor sent a request nor got an answer. *)
Theorem c120_apart ops s n c : wreach ops s -> wfits s -> con s n c -> co_srv c = None ->
  (forall j, c_phase (x_cli (co_rpc c)) <> PHsSend j /\ c_phase (x_cli (co_rpc c)) <> PHsRecv j) /\ c_phase (x_cli (co_rpc c)) <> PConnected /\ outs (co_tr c) = [] /\ gots (co_tr c) = [].
Proof. exact (apart_lemma ops s n c). Qed.
Print Assumptions c120_apart.
Example c120_apart_case : co_srv (the_con w_two 0) = None /\ client_events (co_tr (the_con w_two 0)) = [EvAccept 0; EvAccept 1] /\ c_phase (x_cli (co_rpc (the_con w_two 0))) = PResolve 0.
Proof. repeat split; vm_compute; reflexivity. Qed.

(** The same holds for every call that waits behind it: the calls of a session are answered one after the other. *)
Theorem c120_in_line ops s n c i t d k : wreach ops s -> wfits s -> con s n c -> co_srv c = Some i -> inst s i t -> awaited d (co_rpc c) -> In k (c_queue (x_cli (co_rpc c))) ->
  prepared (wi_ops t) -> (forall k' bs, In (XAsk k' bs) (co_tr c) -> answers_fit t bs) ->
  exists more s' c' bs, forallb wsmooth more = true /\ ws_run more s = Some s' /\ con s' n c' /\ In (XGot k bs) (co_tr c').
Proof. exact (in_line_lemma ops s n c i t d k). Qed.
Print Assumptions c120_in_line.
Example c120_in_line_case : let s := the_s w_line in let c := the_con w_line 0 in let t := the_inst w_line 0 in
  wreach w_line s /\ wfits s /\ con s 0 c /\ co_srv c = Some 0 /\ inst s 0 t /\ awaited 0 (co_rpc c) /\ In 1 (c_queue (x_cli (co_rpc c))) /\ prepared (wi_ops t) /\ (forall k b, In (XAsk k b) (co_tr c) -> answers_fit t b).
Proof. exact w_line_ok. Qed.

(** And for every call of a session that is not connected yet, as long as its server runs and the session has not failed:
    some steps without any failure, new call or change of the methods connect the session to that server, do the handshake
    and bring the answer. *)
Theorem c120_from_start ops s n c i t k bs : wreach ops s -> wfits s -> con s n c -> co_open c = true -> co_srv c = None -> c_phase (x_cli (co_rpc c)) <> PFailed -> In (XAsk k bs) (co_tr c) ->
  inst s i t -> wi_up t = true -> leads_to c t -> prepared (wi_ops t) -> (forall k' b, In (XAsk k' b) (co_tr c) -> answers_fit t b) ->
  exists more s' c' r, forallb wgentle more = true /\ ws_run more s = Some s' /\ con s' n c' /\ co_srv c' = Some i /\ In (XGot k r) (co_tr c').
Proof. exact (from_start_lemma ops s n c i t k bs). Qed.
Print Assumptions c120_from_start.
Example c120_from_start_case : let s := the_s w_two in let c := the_con w_two 0 in let t := the_inst w_two 0 in
  wreach w_two s /\ wfits s /\ con s 0 c /\ co_open c = true /\ co_srv c = None /\ c_phase (x_cli (co_rpc c)) <> PFailed /\
  In (XAsk 1 (call_bytes (str "add") [2]%Z)) (co_tr c) /\ inst s 0 t /\ wi_up t = true /\ leads_to c t /\ prepared (wi_ops t) /\ (forall k b, In (XAsk k b) (co_tr c) -> answers_fit t b).
Proof. exact w_two_ok. Qed.

(** After a session has failed, no later call through it is ever answered. *)
Theorem c120_never_again ops s more s' n c c' k bs : wreach ops s -> wfits s -> con s n c -> c_phase (x_cli (co_rpc c)) = PFailed ->
  ws_run more s = Some s' -> wfits s' -> con s' n c' -> In (XAsk k bs) (co_tr c') -> ~ In (XAsk k bs) (co_tr c) -> forall r, ~ In (XGot k r) (co_tr c').
Proof. exact (never_lemma ops s more s' n c c' k bs). Qed.
Print Assumptions c120_never_again.
Example c120_never_again_case : c_phase (x_cli (co_rpc (the_con w_lost 0))) = PFailed /\
  (let tr := co_tr (the_con (w_lost ++ [WCall 2 0 (str "add") [2]%Z]) 0) in
   nth_error tr (length tr - 1) = Some (XAsk 1 (call_bytes (str "add") [2]%Z)) /\ gots tr = []).
Proof. repeat split; vm_compute; reflexivity. Qed.

(** Wrong: a call of a service is only ever executed by a server of that service.  A request carries the name of
    the method only (ecal_service_client_impl.cpp 325-334, 455-462), and no server compares anything else
    (ecal_service_server_impl.cpp 400-480).  When the server has gone and another service of the host has got its port,
    a client that has not noticed yet calls the other service, which executes it if it has a method of that name. *)
Theorem c120_reuse_refuted : exists ops s n c i t k bs m req q cb, wreach ops s /\ wsane ops /\ wfits s /\ con s n c /\ co_srv c = Some i /\ inst s i t /\ sx_name (wi_srv t) <> co_name c /\
  In (WCall (co_proc c) (co_x c) m req) ops /\ In (VCall q cb m [] [] req) (wi_evs t) /\ In (XGot k bs) (co_tr c).
Proof. exact reuse_lemma. Qed.
Print Assumptions c120_reuse_refuted.

(** Wrong: a client whose process knows a running server can get answers from it.  One lost connection is enough: the
    session has failed, stays in the client under the key of the server and gets all further calls, and nothing ever makes a new
    one for this server (ecal_service_client_impl.cpp 711-749), although the server runs and registers as before. *)
Theorem c120_lost_refuted : exists ops s p x c d k z n w i t, wreach ops s /\ wsane ops /\ wfits s /\ SdsSpec.client_of (ws_net s) p x c d /\ SdsSpec.calls (ws_net s) p x [(k, z)] /\
  con s n w /\ co_open w = true /\ co_proc w = p /\ co_x w = x /\ co_key w = k /\ co_srv w = Some i /\ inst s i t /\ wi_up t = true /\ k = ca_key (wi_facts t) /\ SdsSpec.knows (ws_net s) p (wi_facts t) /\
  forall more s' w' j bs r, ws_run more s = Some s' -> wfits s' -> con s' n w' -> In (XAsk j bs) (co_tr w') -> ~ In (XAsk j bs) (co_tr w) -> ~ In (XGot j r) (co_tr w').
Proof. exact lost_lemma. Qed.
Print Assumptions c120_lost_refuted.
