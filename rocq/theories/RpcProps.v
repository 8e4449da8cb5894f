(** C97: a service call on its way from the client session to the method and back. *)
From Verif Require Import Base Sample PbModel SerModel SrvModel SrvSpec CliModel CliSpec FrmModel RpcModel RpcSpec RpcProofs.
From Verif Require PbSpec.

(** C97: inside the composition the client session and the server behave as alone, so C29 and C31 hold of it. *)
Theorem c97_layers : forall n host name id ops s tr, x_run ops (x_init n host name id) = Some (s, tr) -> modest tr ->
  (exists cops, c_run cops (c_init n) = Some (x_cli s, client_events tr)) /\ m_run (server_ops tr) (server0 host name id) = Some (x_server s, server_events tr).
Proof. exact layers_lemma. Qed.
Print Assumptions c97_layers.

(** C97: a call is written at most once and handed to the server at most once, in the order of writing and with its own bytes. *)
Theorem c97_at_most_once : forall n host name id ops s tr, x_run ops (x_init n host name id) = Some (s, tr) -> modest tr ->
  NoDup (outs tr) /\ NoDup (map fst (takes tr)) /\ prefix (outs tr) (sends (client_events tr)) /\ length (takes tr) <= length (outs tr) /\
  (forall k, In k (map fst (takes tr)) -> exists c, same_place tr c k) /\
  (forall c k, same_place tr c k -> exists bs ops1 ops2, In (XAsk c bs) tr /\ In (XTake k bs) tr /\ server_ops tr = ops1 ++ MRequest bs :: ops2 /\ k = requests ops1).
Proof. exact once_lemma. Qed.
Print Assumptions c97_at_most_once.

(** C97: the bytes handed to the caller are the server's answer to exactly this call: the result of the one execution of the
    method with the callback it had when the request arrived, or the message that there is no such method or no readable request. *)
Theorem c97_answer : forall n host name id ops s tr c bs, x_run ops (x_init n host name id) = Some (s, tr) -> modest tr -> In (XGot c bs) tr ->
  exists req ops1 ops2, In (XAsk c req) tr /\ server_ops tr = ops1 ++ MRequest req :: ops2 /\
    let k := requests ops1 in
    same_place tr c k /\
    match de_request req with
    | Ok q =>
        let m := h_mname (rq_header q) in
        let l := book ops1 m in
        if ld_known l then
          exists cb resp ret, ld_cb l = Some cb /\ returns ops2 k = [(resp, ret)] /\
            about k (server_events tr) = [VCall k cb m (fst (ld_types l)) (snd (ld_types l)) (rq_request q); VReply k bs] /\
            bs = ser_response (say_executed host name id m resp ret)
        else about k (server_events tr) = [VReply k bs] /\ bs = ser_response (say_unknown host name id m)
    | _ => about k (server_events tr) = [VReply k bs] /\ bs = ser_response (say_unreadable host name id)
    end.
Proof. exact answer_lemma. Qed.
Print Assumptions c97_answer.

(** C97: what the caller of method m with request req reads from these bytes. *)
Theorem c97_call_result : forall n host name id ops s tr c m req bs, x_run ops (x_init n host name id) = Some (s, tr) -> modest tr ->
  In (XAsk c (call_bytes m req)) tr -> In (XGot c bs) tr ->
  exists ops1 ops2, server_ops tr = ops1 ++ MRequest (call_bytes m req) :: ops2 /\
    let k := requests ops1 in
    let l := book ops1 m in
    same_place tr c k /\
    if ld_known l then
      exists cb resp ret, ld_cb l = Some cb /\ returns ops2 k = [(resp, ret)] /\
        about k (server_events tr) = [VCall k cb m (fst (ld_types l)) (snd (ld_types l)) req; VReply k bs] /\
        (PbSpec.i64 ret -> de_response bs = Ok (say_executed host name id m resp ret))
    else about k (server_events tr) = [VReply k bs] /\ de_response bs = Ok (say_unknown host name id m).
Proof. exact result_lemma. Qed.
Print Assumptions c97_call_result.

(** C97: between a client and a server of this version no call ends with a protocol error. *)
Theorem c97_no_protocol_error : forall n host name id ops s tr c, x_run ops (x_init n host name id) = Some (s, tr) -> modest tr ->
  ~ In (EvAnswer c AProtocol) (client_events tr).
Proof. exact protocol_lemma. Qed.
Print Assumptions c97_no_protocol_error.

(** C97: wherever an awaited call is, it can still be answered: there are steps without any failure, new call or change of the
    methods that bring the answer to the caller. *)
Theorem c97_answer_possible : forall n host name id ops s tr c, x_run ops (x_init n host name id) = Some (s, tr) -> modest tr ->
  awaited c s -> answerable host name id c tr ->
  exists ops' s' e bs, forallb smooth ops' = true /\ x_run ops' s = Some (s', e) /\ modest (tr ++ e) /\ In (XGot c bs) e.
Proof. exact progress_lemma. Qed.
Print Assumptions c97_answer_possible.

(** A client calls "add", an unknown method and loses the connection in the third call, which is executed nevertheless. *)
Example c97_run :
  match x_run rpc_ops (x_init 1 (str "h") (str "srv") (str "1")) with
  | Some (s, tr) =>
      (outs tr, map fst (takes tr), map fst (backs tr), map fst (gots tr)) = ([0; 1; 2], [0; 2; 3], [0; 2], [0; 1]) /\
      map (fun p => de_response (snd p)) (gots tr) = [Ok (say_executed (str "h") (str "srv") (str "1") (str "add") [3]%Z 0); Ok (say_unknown (str "h") (str "srv") (str "1") (str "sub"))] /\
      In (XSrv (VCall 3 3 (str "add") (str "I") (str "O") [7]%Z)) tr /\ In (EvAnswer 2 AClosed) (client_events tr) /\ modest tr
  | None => False
  end.
Proof. exact run_example. Qed.
(** In the middle of it the first call is awaited and can be answered. *)
Example c97_middle :
  match x_run (firstn 60 rpc_ops) (x_init 1 (str "h") (str "srv") (str "1")) with
  | Some (s, tr) => awaited 0 s /\ answerable (str "h") (str "srv") (str "1") 0 tr /\ modest tr /\ gots tr = []
  | None => False
  end.
Proof. exact middle_example. Qed.
