(** Model of a client session of the services: connecting, the queue of asynchronous calls and
    the handling of a connection loss.
    ecal/service/ecal_service/src/client_session_impl_v1.cpp (the legacy session,
    client_session_impl_v0.cpp, is the same without the handshake states).

    Handlers wrapped by service_call_queue_strand_ run one at a time; every handler is one step.
    The completion of an operation on the socket may come at any time and in any order with the
    posted handlers.  The one handler that does not run in the strand (failed write of the legacy
    session, client_session_impl_v0.cpp 341-360) is split into two steps, so that others may run
    in between; for the current session this allows more executions than there are. *)
From Verif Require Import Base.

(** A started operation carries whether the socket was open when it was started; an operation
    started on a closed socket can only fail.  An operation in progress when the socket is
    closed may have been completed before. *)
Inductive phase :=
| PResolve (i : nat)               (* state NOT_CONNECTED, async_resolve of the i-th server, 104-160 *)
| PConnecting (i : nat)            (* NOT_CONNECTED, async_connect, 162-236 *)
| PHsSend (opened : bool)          (* HANDSHAKE, 238-276 *)
| PHsRecv (opened : bool)          (* HANDSHAKE, 278-365 *)
| PConnected                       (* CONNECTED *)
| PFailed.                         (* FAILED *)
(** Handlers posted to the strand. *)
Inductive post :=
| HCall (c : nat)                  (* the lambda of async_call_service 383-437 *)
| HFlush.                          (* call_all_callbacks_with_error 653-680 *)
(** The request in flight. *)
Inductive flight :=
| Sending (c : nat) (opened : bool)    (* send_next_service_request 442-470 *)
| Receiving (c : nat) (opened : bool). (* receive_service_response 472-542 *)

Record cli := Cli {
  c_servers : nat;          (* server_list_.size() *)
  c_phase : phase;
  c_sock : bool;            (* socket_.is_open() *)
  c_stopped : bool;         (* stopped_by_user_ *)
  c_next : nat;             (* number of accepted calls; calls are named by it *)
  c_queue : list nat;       (* service_call_queue_ *)
  c_busy : bool;            (* service_call_in_progress_ *)
  c_cur : option flight;
  c_peeks : list bool;      (* peeks in progress *)
  c_losses : nat;           (* failed legacy writes before handle_connection_loss_error *)
  c_posts : list post }.

Inductive answer := AOk | AClosed | AProtocol.
Inductive cev :=
| EvAccept (c : nat) | EvReject | EvSend (c : nat) | EvAnswer (c : nat) (a : answer) | EvConnected | EvDisconnected.

Inductive hs_result := HsGood | HsRefused | HsError.  (* 295-365: good version, wrong type or version, read error *)
Inductive recv_result := RGood | RWrongType | RError.
Inductive cop :=
| CCall                     (* async_call_service 371-440 *)
| CStop                     (* stop 682-696 *)
| CPost                     (* the first posted handler runs *)
| CResolve (ok : bool) | CConnect (ok : bool) | CHsSent (ok : bool) | CHsReceived (r : hs_result)
| CSent (ok : bool) | CReceived (r : recv_result) | CPeeked (k : nat) (ok : bool) | CLoss.

Definition set_phase (p : phase) (s : cli) : cli :=
  Cli (c_servers s) p (c_sock s) (c_stopped s) (c_next s) (c_queue s) (c_busy s) (c_cur s) (c_peeks s) (c_losses s) (c_posts s).
Definition set_sock (b : bool) (s : cli) : cli :=
  Cli (c_servers s) (c_phase s) b (c_stopped s) (c_next s) (c_queue s) (c_busy s) (c_cur s) (c_peeks s) (c_losses s) (c_posts s).
Definition set_cur (f : option flight) (s : cli) : cli :=
  Cli (c_servers s) (c_phase s) (c_sock s) (c_stopped s) (c_next s) (c_queue s) (c_busy s) f (c_peeks s) (c_losses s) (c_posts s).
Definition set_peeks (l : list bool) (s : cli) : cli :=
  Cli (c_servers s) (c_phase s) (c_sock s) (c_stopped s) (c_next s) (c_queue s) (c_busy s) (c_cur s) l (c_losses s) (c_posts s).
Definition set_losses (n : nat) (s : cli) : cli :=
  Cli (c_servers s) (c_phase s) (c_sock s) (c_stopped s) (c_next s) (c_queue s) (c_busy s) (c_cur s) (c_peeks s) n (c_posts s).
Definition set_posts (l : list post) (s : cli) : cli :=
  Cli (c_servers s) (c_phase s) (c_sock s) (c_stopped s) (c_next s) (c_queue s) (c_busy s) (c_cur s) (c_peeks s) (c_losses s) l.
Definition set_queue (l : list nat) (s : cli) : cli :=
  Cli (c_servers s) (c_phase s) (c_sock s) (c_stopped s) (c_next s) l (c_busy s) (c_cur s) (c_peeks s) (c_losses s) (c_posts s).

Definition is_nil {A} (l : list A) : bool := match l with [] => true | _ => false end.

(** send_next_service_request, service_call_in_progress_ = true. *)
Definition send (c : nat) (s : cli) : cli * list cev :=
  (Cli (c_servers s) (c_phase s) (c_sock s) (c_stopped s) (c_next s) (c_queue s) true (Some (Sending c (c_sock s)))
       (c_peeks s) (c_losses s) (c_posts s), [EvSend c]).
(** The next call from the queue, or peeking (325-346, 516-536): peek_for_error 593-608. *)
Definition next (s : cli) : cli * list cev :=
  match c_queue s with
  | c :: q => send c (set_queue q s)
  | [] => (Cli (c_servers s) (c_phase s) (c_sock s) (c_stopped s) (c_next s) [] false None
             (c_peeks s ++ [c_sock s]) (c_losses s) (c_posts s), [])
  end.
(** handle_connection_loss_error 610-651. *)
Definition loss (s : cli) : cli * list cev :=
  let s1 := set_sock false s in
  match c_phase s with
  | PFailed => (s1, [])
  | p => (set_posts (c_posts s ++ if is_nil (c_queue s) then [] else [HFlush]) (set_phase PFailed s1),
          match p with PConnected => [EvDisconnected] | _ => [] end)
  end.
Definition with_events (e : list cev) (r : cli * list cev) : option (cli * list cev) := Some (fst r, e ++ snd r).

(** None: the step is not possible. *)
Definition c_step (op : cop) (s : cli) : option (cli * list cev) :=
  match op with
  | CCall =>
      if c_stopped s then Some (s, [EvReject])
      else Some (Cli (c_servers s) (c_phase s) (c_sock s) (c_stopped s) (S (c_next s)) (c_queue s) (c_busy s) (c_cur s)
                   (c_peeks s) (c_losses s) (c_posts s ++ [HCall (c_next s)]), [EvAccept (c_next s)])
  | CStop =>
      Some (Cli (c_servers s) (c_phase s) false true (c_next s) (c_queue s) (c_busy s) (c_cur s) (c_peeks s) (c_losses s) (c_posts s), [])
  | CPost =>
      match c_posts s with
      | HCall c :: ps =>
          let s1 := set_posts ps s in
          match c_phase s with
          | PFailed => Some (s1, [EvAnswer c AClosed])
          | PConnected => if c_busy s then Some (set_queue (c_queue s ++ [c]) s1, []) else Some (send c s1)
          | _ => Some (set_queue (c_queue s ++ [c]) s1, [])
          end
      | HFlush :: ps =>
          match c_queue s with
          | [] => Some (set_posts ps s, [])
          | c :: q => Some (set_posts (ps ++ if is_nil q then [] else [HFlush]) (set_queue q s), [EvAnswer c AClosed])
          end
      | [] => None
      end
  | CResolve ok =>
      match c_phase s with
      | PResolve i =>
          if ok then Some (set_sock true (set_phase (PConnecting i) s), [])  (* async_connect opens the socket *)
          else if Nat.ltb (S i) (c_servers s) then Some (set_phase (PResolve (S i)) s, []) else Some (loss s)
      | _ => None
      end
  | CConnect ok =>
      match c_phase s with
      | PConnecting i =>
          if ok then Some (set_phase (PHsSend (c_sock s)) s, [])
          else if Nat.ltb (S i) (c_servers s) then Some (set_phase (PResolve (S i)) s, []) else Some (loss s)
      | _ => None
      end
  | CHsSent ok =>
      match c_phase s with
      | PHsSend o => if ok then if o then Some (set_phase (PHsRecv (c_sock s)) s, []) else None else Some (loss s)
      | _ => None
      end
  | CHsReceived r =>
      match c_phase s with
      | PHsRecv o =>
          match r with
          | HsError => Some (loss s)
          | HsRefused => if o then Some (loss s) else None
          | HsGood => if o then with_events [EvConnected] (next (set_phase PConnected s)) else None
          end
      | _ => None
      end
  | CSent ok =>
      match c_cur s with
      | Some (Sending c o) =>
          if ok then if o then Some (set_cur (Some (Receiving c (c_sock s))) s, []) else None
          else Some (set_losses (S (c_losses s)) (set_cur None s), [EvAnswer c AClosed])
      | _ => None
      end
  | CReceived r =>
      match c_cur s with
      | Some (Receiving c o) =>
          match r with
          | RError => with_events [EvAnswer c AClosed] (loss (set_cur None s))
          | RWrongType => if o then with_events [EvAnswer c AProtocol] (loss (set_cur None s)) else None
          | RGood => if o then with_events [EvAnswer c AOk] (next (set_cur None s)) else None
          end
      | _ => None
      end
  | CPeeked k ok =>
      match nth_error (c_peeks s) k with
      | Some o =>
          let s1 := set_peeks (firstn k (c_peeks s) ++ skipn (S k) (c_peeks s)) s in
          if ok then if o then Some (s1, []) else None else Some (loss s1)
      | None => None
      end
  | CLoss => match c_losses s with S n => Some (loss (set_losses n s)) | 0 => None end
  end.

Fixpoint c_run (ops : list cop) (s : cli) : option (cli * list cev) :=
  match ops with
  | [] => Some (s, [])
  | op :: ops' =>
      match c_step op s with
      | Some (s1, e1) => match c_run ops' s1 with Some (s2, e2) => Some (s2, e1 ++ e2) | None => None end
      | None => None
      end
  end.
(** create, 60-98: the first server is resolved. *)
Definition c_init (servers : nat) : cli := Cli servers (PResolve 0) false false 0 [] false None [] 0 [].
