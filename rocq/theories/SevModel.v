(** Model of the connection events of a service server.
    ecal/core/src/service/ecal_service_server_impl.cpp 254-296, 482-543;
    ecal/service/ecal_service/src/server_impl.cpp 95-117, 185-281;
    server_session_impl_v1.cpp 87-110, 141-214, 215-279, 281-367; server_session_impl_v0.cpp 84-115.

    Four threads run the handlers.  A session that connects or breaks changes its state and then
    runs CServiceServerImpl::EventCallback, which updates the flags of both protocol versions under
    m_connected_mutex (one step) and then runs the user's callback under the lock of the callback
    table (another step).  A session starts to wait for requests after its connected event.
    Simplified: both protocol versions are enabled; broken sessions stay in the list (they are not
    counted, get_connection_count 107); the names in the messages and Stop are left out. *)
From Verif Require Import Base.

Inductive sstate := Hand | Conn | Gone.   (* HANDSHAKE (V0: not yet started), CONNECTED, FAILED *)
Inductive etype := EConn | EDisc.
Inductive epart := PFlags | PCall.
Record sev := Sev {
  se_sessions : list (nat * (bool * sstate));      (* true: protocol version 1 *)
  se_v0 : bool; se_v1 : bool;                      (* m_connected_v0, m_connected_v1 *)
  se_conn : option (option nat);                   (* m_event_callback_map: absent, empty function, callback *)
  se_disc : option (option nat);
  se_pending : list (nat * (etype * epart));       (* handlers inside EventCallback, by session *)
  se_dead : bool }.
Definition sev0 : sev := Sev [] false false None None [] false.

Inductive nop :=
| NAccept (i : nat) (v : bool)   (* server_impl.cpp 257-263 *)
| NConnect (i : nat)             (* handshake response sent (V1 265-278), start (V0) *)
| NRefuse (i : nat)              (* handshake fails (V1 only): no event *)
| NLost (i : nat)                (* reading or writing fails, or the client closes *)
| NFlags (i : nat)               (* 486-527 *)
| NCall (i : nat)                (* 529-541 *)
| NAdd (t : etype) (cb : nat)    (* AddEventCallback *)
| NRem (t : etype).              (* RemEventCallback *)
Inductive nev :=
| NEvent (i : nat) (t : etype) (cb : option nat)  (* a change was found; None: no callback installed *)
| NTerminate (i : nat).                           (* an empty std::function was called *)

(** get_connection_count 98-114 and is_connected 93-96. *)
Definition alive (v : bool) (l : list (nat * (bool * sstate))) : bool :=
  existsb (fun p => (Bool.eqb (fst (snd p)) v && match snd (snd p) with Gone => false | _ => true end)%bool) l.
(** CServiceServerImpl::IsConnected 288-294. *)
Definition is_connected (s : sev) : bool := (alive false (se_sessions s) || alive true (se_sessions s))%bool.

Definition set_sessions (l : list (nat * (bool * sstate))) (s : sev) : sev :=
  Sev l (se_v0 s) (se_v1 s) (se_conn s) (se_disc s) (se_pending s) (se_dead s).
Definition set_pending (l : list (nat * (etype * epart))) (s : sev) : sev :=
  Sev (se_sessions s) (se_v0 s) (se_v1 s) (se_conn s) (se_disc s) l (se_dead s).
Definition callback_of (t : etype) (s : sev) : option (option nat) := match t with EConn => se_conn s | EDisc => se_disc s end.
Definition set_callback (t : etype) (c : option nat) (s : sev) : sev :=
  match t with
  | EConn => Sev (se_sessions s) (se_v0 s) (se_v1 s) (Some c) (se_disc s) (se_pending s) (se_dead s)
  | EDisc => Sev (se_sessions s) (se_v0 s) (se_v1 s) (se_conn s) (Some c) (se_pending s) (se_dead s)
  end.

Definition n_step (op : nop) (s : sev) : option (sev * list nev) :=
  if se_dead s then None else
  match op with
  | NAccept i v => if amem i (se_sessions s) then None else Some (set_sessions ((i, (v, Hand)) :: se_sessions s) s, [])
  | NConnect i =>
      match aget i (se_sessions s) with
      | Some (v, Hand) => Some (set_pending ((i, (EConn, PFlags)) :: se_pending s) (set_sessions (aset i (v, Conn) (se_sessions s)) s), [])
      | _ => None
      end
  | NRefuse i =>
      match aget i (se_sessions s) with
      | Some (true, Hand) => Some (set_sessions (aset i (true, Gone) (se_sessions s)) s, [])
      | _ => None
      end
  | NLost i =>
      match aget i (se_sessions s), aget i (se_pending s) with
      | Some (v, Conn), None => Some (set_pending ((i, (EDisc, PFlags)) :: se_pending s) (set_sessions (aset i (v, Gone) (se_sessions s)) s), [])
      | _, _ => None
      end
  | NFlags i =>
      match aget i (se_pending s) with
      | Some (t, PFlags) =>
          let a0 := alive false (se_sessions s) in let a1 := alive true (se_sessions s) in
          let changed := (xorb (se_v0 s) a0 || xorb (se_v1 s) a1)%bool in
          Some (Sev (se_sessions s) a0 a1 (se_conn s) (se_disc s)
                  (if changed then aset i (t, PCall) (se_pending s) else adel i (se_pending s)) (se_dead s), [])
      | _ => None
      end
  | NCall i =>
      match aget i (se_pending s) with
      | Some (t, PCall) =>
          let s' := set_pending (adel i (se_pending s)) s in
          match callback_of t s with
          | Some (Some cb) => Some (s', [NEvent i t (Some cb)])
          | Some None => Some (Sev (se_sessions s) (se_v0 s) (se_v1 s) (se_conn s) (se_disc s) (adel i (se_pending s)) true, [NTerminate i])
          | None => Some (s', [NEvent i t None])
          end
      | _ => None
      end
  | NAdd t cb => Some (set_callback t (Some cb) s, [])
  | NRem t => Some (set_callback t None s, [])
  end.
Fixpoint n_run (ops : list nop) (s : sev) : option (sev * list nev) :=
  match ops with
  | [] => Some (s, [])
  | op :: ops' =>
      match n_step op s with
      | Some (s', e) => match n_run ops' s' with Some (s'', e') => Some (s'', e ++ e') | None => None end
      | None => None
      end
  end.
