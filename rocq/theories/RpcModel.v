(** Model of a service call on its way from the client to the server and back: a client session
    (CliModel), the two byte streams of its connection, the session of the server and the server
    with its methods (SrvModel).
    ecal/service/ecal_service/src/client_session_impl_v1.cpp 162-365, 442-542;
    ecal/service/ecal_service/src/server_session_impl_v1.cpp 140-341;
    ecal/core/src/service/ecal_service_client_impl.cpp 315-391.

    A frame is put into its stream when the writing is started; the bytes are read one by one, at
    any time and by any side that reads, or never.  A writing that fails may so have arrived
    completely: this allows more executions than there are.  The server may have any number of
    further sessions; their requests are operations of the server like any other. *)
From Verif Require Import Base Sample PbModel SerModel SrvModel CliModel FrmModel.

(** State of ServerSessionV1. *)
Inductive sess :=
| SHandshake       (* receive_handshake_request 140-211 *)
| SReading         (* receive_service_request 259-309 *)
| SBusy (k : nat)  (* service_callback_ is running for request k, 302 *)
| SClosed.         (* FAILED, or stopped *)
Record rpc := Rpc {
  x_cli : cli;
  x_reqs : list (list Z);  (* the requests of the accepted calls *)
  x_up : list Z;           (* bytes on their way to the server *)
  x_sread : reader;
  x_sess : sess;
  x_down : list Z;         (* bytes on their way to the client *)
  x_cread : reader;
  x_server : server }.

Inductive xev :=
| XCli (e : cev)                  (* what the client session does, C29 *)
| XAsk (c : nat) (bs : list Z)    (* call c is accepted, with request bs *)
| XOut (c : nat)                  (* the request of call c is written *)
| XGot (c : nat) (bs : list Z)    (* the response callback of call c is called with response bs *)
| XTake (k : nat) (bs : list Z)   (* the session hands over request bs, which is number k of the server *)
| XBack (k : nat) (bs : list Z)   (* the session writes response bs to request k *)
| XDo (op : mop)                  (* the server performs a step *)
| XSrv (e : mev).                 (* what the server does, C31 *)
Inductive xop :=
| XCall (bs : list Z)             (* async_call_service *)
| XClient (op : cop)              (* any step of the client session that is not the end of a reading *)
| XClientByte                     (* the client reads the next byte *)
| XServerByte                     (* the session of the server reads the next byte *)
| XServer (op : mop)              (* any step of the server, also for other sessions *)
| XLost.                          (* the session of the server fails or is stopped *)

(** ecal_service_client_impl.cpp 325-334, 455-462: the request of a call. *)
Definition call_bytes (m req : text) : list Z := ser_request (Request (Header [] [] [] m [] 0 0) req).

Definition request_msg (bs : list Z) : fmsg := FMsg v_max mt_service_request bs.
Definition response_msg (bs : list Z) : fmsg := FMsg v_max mt_service_response bs.

Definition set_cli (c : cli) (s : rpc) : rpc :=
  Rpc c (x_reqs s) (x_up s) (x_sread s) (x_sess s) (x_down s) (x_cread s) (x_server s).
Definition set_server (v : server) (s : rpc) : rpc :=
  Rpc (x_cli s) (x_reqs s) (x_up s) (x_sread s) (x_sess s) (x_down s) (x_cread s) v.
Definition set_sess (t : sess) (s : rpc) : rpc :=
  Rpc (x_cli s) (x_reqs s) (x_up s) (x_sread s) t (x_down s) (x_cread s) (x_server s).
Definition write_up (m : fmsg) (s : rpc) : rpc :=
  Rpc (x_cli s) (x_reqs s) (x_up s ++ frame m) (x_sread s) (x_sess s) (x_down s) (x_cread s) (x_server s).
Definition write_down (m : fmsg) (s : rpc) : rpc :=
  Rpc (x_cli s) (x_reqs s) (x_up s) (x_sread s) (x_sess s) (x_down s ++ frame m) (x_cread s) (x_server s).
(** The next byte of a stream is read. *)
Definition read_up (bs : list Z) (r : reader) (s : rpc) : rpc :=
  Rpc (x_cli s) (x_reqs s) bs r (x_sess s) (x_down s) (x_cread s) (x_server s).
Definition read_down (bs : list Z) (r : reader) (s : rpc) : rpc :=
  Rpc (x_cli s) (x_reqs s) (x_up s) (x_sread s) (x_sess s) bs r (x_server s).

(** The request whose writing is started by a step of the client session (on an open socket). *)
Definition started (e : list cev) (c : cli) : option nat :=
  match flat_map (fun e => match e with EvSend d => [d] | _ => [] end) e with
  | d :: _ => if c_sock c then Some d else None
  | [] => None
  end.
(** send_next_service_request 442-470. *)
Definition write_request (e : list cev) (s : rpc) : rpc * list xev :=
  match started e (x_cli s) with
  | Some d => (write_up (request_msg (nth d (x_reqs s) [])) s, [XOut d])
  | None => (s, [])
  end.
(** A step of the client session. *)
Definition client (op : cop) (s : rpc) : option (rpc * list xev) :=
  match c_step op (x_cli s) with
  | Some (c, e) => let (s', o) := write_request e (set_cli c s) in Some (s', map XCli e ++ o)
  | None => None
  end.
(** The ends of a reading come with the bytes. *)
Definition with_data (op : cop) : bool :=
  match op with CCall | CHsReceived HsGood | CHsReceived HsRefused | CReceived RGood | CReceived RWrongType => true | _ => false end.

(** The session has an answer: send_service_response 311-341. *)
Definition reply (e : list mev) (s : rpc) : rpc * list xev :=
  match x_sess s, e with
  | SBusy k, [VReply k' bs] => if Nat.eqb k' k then (set_sess SReading (write_down (response_msg bs) s), [XBack k bs]) else (s, [])
  | _, _ => (s, [])
  end.
(** A step of the server. *)
Definition serve (op : mop) (s : rpc) : option (rpc * list xev) :=
  match m_step op (x_server s) with
  | Some (v, e) => let (s', o) := reply e (set_server v s) in Some (s', XDo op :: map XSrv e ++ o)
  | None => None
  end.

(** None: the step is not possible. *)
Definition x_step (op : xop) (s : rpc) : option (rpc * list xev) :=
  match op with
  | XCall bs =>
      match c_step CCall (x_cli s) with
      | Some (c, [EvAccept d]) =>
          Some (Rpc c (x_reqs s ++ [bs]) (x_up s) (x_sread s) (x_sess s) (x_down s) (x_cread s) (x_server s), [XCli (EvAccept d); XAsk d bs])
      | Some (c, e) => Some (set_cli c s, map XCli e)
      | None => None
      end
  | XClient op =>
      if with_data op then None
      else
        match client op s with
        | Some (s', o) =>
            (* send_protocol_handshake_request 238-276 *)
            match op, c_phase (x_cli s') with
            | CConnect true, PHsSend true => Some (write_up (handshake_request v_min v_max) s', o)
            | _, _ => Some (s', o)
            end
        | None => None
        end
  | XClientByte =>
      match x_down s with
      | [] => None
      | b :: bs =>
          match c_phase (x_cli s), c_cur (x_cli s) with
          | PHsRecv true, _ =>
              match push (x_cread s) b with
              | inl r => Some (read_down bs r s, [])
              | inr m => client (CHsReceived (match client_accepts v_min v_max m with Some _ => HsGood | None => HsRefused end)) (read_down bs reader0 s)
              end
          | _, Some (Receiving c true) =>
              match push (x_cread s) b with
              | inl r => Some (read_down bs r s, [])
              | inr m =>
                  if Z.eqb (fm_type m) mt_service_response then
                    match client (CReceived RGood) (read_down bs reader0 s) with
                    | Some (s', o) => Some (s', XGot c (fm_pay m) :: o)
                    | None => None
                    end
                  else client (CReceived RWrongType) (read_down bs reader0 s)
              end
          | _, _ => None
          end
      end
  | XServerByte =>
      match x_up s with
      | [] => None
      | b :: bs =>
          match x_sess s with
          | SHandshake =>
              match push (x_sread s) b with
              | inl r => Some (read_up bs r s, [])
              | inr m =>
                  let s1 := read_up bs reader0 s in
                  match server_choice v_min v_max m with
                  | Some v => Some (set_sess SReading (write_down (handshake_response v) s1), [])
                  | None => Some (set_sess SClosed s1, [])
                  end
              end
          | SReading =>
              match push (x_sread s) b with
              | inl r => Some (read_up bs r s, [])
              | inr m =>
                  let s1 := read_up bs reader0 s in
                  if Z.eqb (fm_type m) mt_service_request then
                    let k := vr_next (x_server s) in
                    match serve (MRequest (fm_pay m)) (set_sess (SBusy k) s1) with
                    | Some (s', o) => Some (s', XTake k (fm_pay m) :: o)
                    | None => None
                    end
                  else Some (set_sess SClosed s1, [])
              end
          | _ => None
          end
      end
  | XServer op => serve op s
  | XLost => match x_sess s with SClosed => None | _ => Some (set_sess SClosed s, []) end
  end.
Fixpoint x_run (ops : list xop) (s : rpc) : option (rpc * list xev) :=
  match ops with
  | [] => Some (s, [])
  | op :: ops' =>
      match x_step op s with
      | Some (s1, e1) => match x_run ops' s1 with Some (s2, e2) => Some (s2, e1 ++ e2) | None => None end
      | None => None
      end
  end.
Definition x_init (servers : nat) (host name id : text) : rpc :=
  Rpc (c_init servers) [] [] reader0 SHandshake [] reader0 (server0 host name id).
