(** Model of a connection of the legacy service protocol as a whole: the calls of a client session,
    the two byte streams, the session of the server and its service callback.
    ecal/service/ecal_service/src/client_session_impl_v0.cpp 263-418;
    ecal/service/ecal_service/src/server_session_impl_v0.cpp 142-253;
    ecal/service/ecal_service/src/protocol_v0.cpp 51-134.

    A request is written without any header; the server takes what it finds in the socket for a
    request (FrmModel).  A response has a header with its size.

    Simplified: the session is connected (C29 has the states before); a request and a response are
    put into their streams when the writing is started; the next reading of the server starts when its
    response is in the stream; of a lost connection only what the client sees is modelled. *)
From Verif Require Import Base Sample FrmModel.

Record leg := Leg {
  lg_wait : list (list Z);   (* service_call_queue_, and the posted calls *)
  lg_sent : list (list Z);   (* the requests written so far *)
  lg_flight : bool;          (* service_call_in_progress_: the last of them is not answered *)
  lg_lost : bool;            (* State::FAILED *)
  lg_up : list Z;            (* bytes on their way to the server *)
  lg_srv : v0;               (* the session of the server; v_calls: the requests given to the callback *)
  lg_resp : list (list Z);   (* what the callback returned so far *)
  lg_down : list Z;          (* bytes on their way to the client, or in its socket *)
  lg_rd : reader_v0;
  lg_got : list (list Z) }.  (* the responses given to the callers, in the order of their calls *)
Definition leg0 : leg := Leg [] [] false false [] v0_init [] [] (SHdr []) [].

(** The service callback is running, server_session_impl_v0.cpp 212. *)
Definition lg_busy (s : leg) : bool := Nat.ltb (length (lg_resp s)) (length (v_calls (lg_srv s))).

Inductive lop :=
| LCall (bs : list Z)    (* async_call_service 263-332 *)
| LSend                  (* send_next_service_request 334-361, from the queue 385-405 or directly *)
| LArrive (n : nat)      (* the next bytes reach the socket of the server *)
| LRead                  (* async_read_some of the server completes *)
| LHandle                (* handle_read 163-232 *)
| LAnswer (bs : list Z)  (* the callback returns, the response is written 215-231 *)
| LByte                  (* the client reads the next byte, receive_service_response 363-418 *)
| LLost.                 (* handle_connection_loss_error *)

Definition set_srv (v : v0) (s : leg) : leg :=
  Leg (lg_wait s) (lg_sent s) (lg_flight s) (lg_lost s) (lg_up s) v (lg_resp s) (lg_down s) (lg_rd s) (lg_got s).
(** None: the step is not possible. *)
Definition lg_step (o : lop) (s : leg) : option leg :=
  match o with
  | LCall bs =>
      (* a call on a failed session is answered with an error 314-318, 321-328 *)
      if lg_lost s then Some s
      else Some (Leg (lg_wait s ++ [bs]) (lg_sent s) (lg_flight s) (lg_lost s) (lg_up s) (lg_srv s) (lg_resp s) (lg_down s) (lg_rd s) (lg_got s))
  | LSend =>
      match lg_wait s with
      | b :: w =>
          if (lg_flight s || lg_lost s)%bool then None
          else Some (Leg w (lg_sent s ++ [b]) true false (lg_up s ++ b) (lg_srv s) (lg_resp s) (lg_down s) (lg_rd s) (lg_got s))
      | [] => None
      end
  | LArrive n =>
      Some (Leg (lg_wait s) (lg_sent s) (lg_flight s) (lg_lost s) (skipn n (lg_up s)) (v0_step (VArrive (firstn n (lg_up s))) (lg_srv s))
                (lg_resp s) (lg_down s) (lg_rd s) (lg_got s))
  | LRead => if lg_busy s then None else Some (set_srv (v0_step VRead (lg_srv s)) s)
  | LHandle => if lg_busy s then None else Some (set_srv (v0_step VHandle (lg_srv s)) s)
  | LAnswer bs =>
      if lg_busy s
      then Some (Leg (lg_wait s) (lg_sent s) (lg_flight s) (lg_lost s) (lg_up s) (lg_srv s) (lg_resp s ++ [bs]) (lg_down s ++ frame0 bs) (lg_rd s) (lg_got s))
      else None
  | LByte =>
      (* without a call in progress the client only peeks, 471-487 *)
      if lg_flight s then
        match lg_down s with
        | b :: l =>
            match push0 (lg_rd s) b with
            | inl r => Some (Leg (lg_wait s) (lg_sent s) true (lg_lost s) (lg_up s) (lg_srv s) (lg_resp s) l r (lg_got s))
            | inr m => Some (Leg (lg_wait s) (lg_sent s) false (lg_lost s) (lg_up s) (lg_srv s) (lg_resp s) l (SHdr []) (lg_got s ++ [m]))
            end
        | [] => None
        end
      else None
  | LLost =>
      (* the call in progress and the waiting ones are answered with errors *)
      Some (Leg [] (lg_sent s) false true (lg_up s) (lg_srv s) (lg_resp s) (lg_down s) (lg_rd s) (lg_got s))
  end.
Fixpoint lg_run (l : list lop) (s : leg) : option leg :=
  match l with [] => Some s | o :: l' => match lg_step o s with Some s' => lg_run l' s' | None => None end end.
