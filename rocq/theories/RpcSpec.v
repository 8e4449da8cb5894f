(** Vocabulary for the statements about service calls from end to end. *)
From Verif Require Import Base Sample PbModel SerModel SrvModel SrvSpec CliModel CliSpec FrmModel RpcModel.

(** What the client session and the server do in a run. *)
Definition client_events (tr : list xev) : list cev := flat_map (fun e => match e with XCli e => [e] | _ => [] end) tr.
Definition server_ops (tr : list xev) : list mop := flat_map (fun e => match e with XDo op => [op] | _ => [] end) tr.
Definition server_events (tr : list xev) : list mev := flat_map (fun e => match e with XSrv e => [e] | _ => [] end) tr.
(** Requests written, requests handed to the server, answers written, answers handed to the caller. *)
Definition outs (tr : list xev) : list nat := flat_map (fun e => match e with XOut c => [c] | _ => [] end) tr.
Definition takes (tr : list xev) : list (nat * list Z) := flat_map (fun e => match e with XTake k bs => [(k, bs)] | _ => [] end) tr.
Definition backs (tr : list xev) : list (nat * list Z) := flat_map (fun e => match e with XBack k bs => [(k, bs)] | _ => [] end) tr.
Definition gots (tr : list xev) : list (nat * list Z) := flat_map (fun e => match e with XGot c bs => [(c, bs)] | _ => [] end) tr.

(** Requests and answers are shorter than 4 GiB. *)
Definition fits (bs : list Z) : Prop := (Z.of_nat (length bs) < 2 ^ 32)%Z.
Definition modest (tr : list xev) : Prop :=
  (forall c bs, In (XAsk c bs) tr -> fits bs) /\ (forall k bs, In (XBack k bs) tr -> fits bs).

Definition prefix {A} (a b : list A) : Prop := exists c, b = a ++ c.
(** Call c was request number k of the server: both have the same place in their orders. *)
Definition same_place (tr : list xev) (c k : nat) : Prop :=
  exists i, nth_error (outs tr) i = Some c /\ nth_error (map fst (takes tr)) i = Some k.

(** The client session is connected, nothing is lost, and the answer to call c is awaited. *)
Definition awaited (c : nat) (s : rpc) : Prop :=
  (c_cur (x_cli s) = Some (Sending c true) \/ c_cur (x_cli s) = Some (Receiving c true)) /\
  c_phase (x_cli s) = PConnected /\ c_sock (x_cli s) = true /\ x_sess s <> SClosed.
(** Steps in which nothing fails and nobody asks for anything. *)
Definition smooth (op : xop) : bool :=
  match op with
  | XClient (CSent true) | XClientByte | XServerByte | XServer (MEnter _) | XServer (MReturn _ _ _) => true
  | _ => false
  end.

(** The server can answer call c: no requested method is without callback, and the shortest answers
    fit. *)
Definition answerable (host name id : text) (c : nat) (tr : list xev) : Prop :=
  forall req, In (XAsk c req) tr ->
    callable (server_ops tr) /\ callable (server_ops tr ++ [MRequest req]) /\
    fits (ser_response (say_unreadable host name id)) /\
    forall m, names m req = true -> fits (ser_response (say_unknown host name id m)) /\ fits (ser_response (say_executed host name id m [] 0)).

(** A client calls a method, an unknown method, and loses the connection in the third call. *)
Definition rpc_ops : list xop :=
  [XServer (MCallback (str "add") (str "I") (str "O") 3);
   XCall (call_bytes (str "add") [1; 2]%Z);
   XClient CPost; XClient (CResolve true); XClient (CConnect true); XClient (CHsSent true)]
  ++ repeat XServerByte 18 ++ repeat XClientByte 17
  ++ [XClient (CSent true); XCall (call_bytes (str "sub") [9]%Z); XClient CPost; XCall (call_bytes (str "add") [7]%Z); XClient CPost]
  ++ repeat XServerByte (16 + length (call_bytes (str "add") [1; 2]%Z))
  ++ [XServer (MRequest (call_bytes (str "add") [5]%Z)); XServer (MEnter 0); XServer (MReturn 0 [3]%Z 0)]
  ++ repeat XClientByte (16 + length (ser_response (say_executed (str "h") (str "srv") (str "1") (str "add") [3]%Z 0)))
  ++ [XClient (CSent true)]
  ++ repeat XServerByte (16 + length (call_bytes (str "sub") [9]%Z))
  ++ repeat XClientByte (16 + length (ser_response (say_unknown (str "h") (str "srv") (str "1") (str "sub"))))
  ++ [XClient (CSent true)]
  ++ repeat XServerByte (16 + length (call_bytes (str "add") [7]%Z))
  ++ [XServer (MEnter 3); XLost; XServer (MReturn 3 [8]%Z 0); XClient (CReceived RError)].
