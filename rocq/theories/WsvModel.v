(** Services as a whole: processes that find each other's servers (SdsModel), the sessions their
    clients open, and what happens on every connection (RpcModel), with any number of clients
    connected to one server.
    ecal/core/src/service/ecal_service_client_impl.cpp 100-131, 302-393, 440-570, 711-780;
    ecal_service_server_impl.cpp 63-173, 400-480;
    ecal/service/ecal_service/src/client_session_impl_v1.cpp 104-276, client_session.cpp 94-97.

    The operating system gives a server only ports that no running server of the host has; a
    connection leads to whoever listens on the port when it is made.  A host name, with or without
    ".local", leads to the host of that name.

    Simplified: an operation runs to its end before the next one starts, and one call asks all its
    sessions at once; a server that is destroyed closes its connections at once; legacy sessions
    (protocol 0) are not driven, the requests they bring to a server come from outside ([WOld]);
    other programs do not listen on ports of eCAL. *)
From Verif Require Import Base Sample ExpMapModel PbModel SerModel SrvModel CliModel FrmModel RpcModel SdsModel.

(** A server that was created: process and number in it, settings, what it tells about itself; is it
    running; its methods and requests; all that happened at it. *)
Record winst := WInst {
  wi_proc : nat; wi_x : nat; wi_cfg : dcfg; wi_srv : dsrv; wi_up : bool; wi_state : server; wi_tr : list xev }.
(** A session: process and number of its client, service name of the client, key in m_client_map, the
    session as it was made; does the client still have it; the server it is connected to; the
    connection; all that happened at the session and at its server. *)
Record wcon := WCon_ {
  co_proc : nat; co_x : nat; co_name : text; co_key : text; co_ses : dses; co_open : bool;
  co_srv : option nat; co_rpc : rpc; co_tr : list xev }.
(** [ws_hist]: what the discovery did so far. *)
Record wsv := Wsv { ws_net : dnet; ws_hist : list dop; ws_insts : list winst; ws_cons : list wcon }.
Definition wsv0 : wsv := Wsv dnet0 [] [] [].

Fixpoint mapi {A B} (f : nat -> A -> B) (n : nat) (l : list A) : list B :=
  match l with [] => [] | a :: l' => f n a :: mapi f (S n) l' end.
Definition upd {A} (n : nat) (v : A) (l : list A) : list A := mapi (fun j a => if Nat.eqb j n then v else a) 0 l.

(** ** Servers and ports *)
Definition wi_new (p x : nat) (c : dcfg) (e : dsrv) : winst :=
  WInst p x c e true (server0 (pc_host c) (sx_name e) (sx_id e)) [].
Definition wi_down (t : winst) : winst := WInst (wi_proc t) (wi_x t) (wi_cfg t) (wi_srv t) false (wi_state t) (wi_tr t).
Definition bound_ports (c : dcfg) (e : dsrv) : list Z := filter (fun z => negb (Z.eqb z 0)) [sx_port0 c e; sx_port1 c e].
Definition taken (h : text) (z : Z) (l : list winst) : bool :=
  existsb (fun t => (wi_up t && eqb (pc_host (wi_cfg t)) h && existsb (Z.eqb z) (bound_ports (wi_cfg t) (wi_srv t)))%bool) l.
(** bind, ecal/service/ecal_service/src/server_impl.cpp 146-190, with port 0: the system chooses. *)
Definition bindable (c : dcfg) (e : dsrv) (l : list winst) : bool :=
  (forallb (fun z => negb (taken (pc_host c) z l)) (bound_ports c e) &&
   (Z.eqb (sx_port0 c e) 0 || negb (Z.eqb (sx_port0 c e) (sx_port1 c e))))%bool.
(** CServiceServer::Destroy: the running server [x] of process [p]. *)
Definition is_srv (p x : nat) (t : winst) : bool := (wi_up t && Nat.eqb (wi_proc t) p && Nat.eqb (wi_x t) x)%bool.

(** ** Sessions *)
Definition co_new (p x : nat) (name k : text) (z : dses) : wcon :=
  WCon_ p x name k z true None (x_init (length (ss_ends z)) [] [] []) [].
Definition co_set (r : rpc) (e : list xev) (c : wcon) : wcon :=
  WCon_ (co_proc c) (co_x c) (co_name c) (co_key c) (co_ses c) (co_open c) (co_srv c) r (co_tr c ++ e).
Definition co_close (c : wcon) : wcon :=
  WCon_ (co_proc c) (co_x c) (co_name c) (co_key c) (co_ses c) false (co_srv c) (co_rpc c) (co_tr c).
Definition co_step (o : xop) (c : wcon) : option (wcon * list xev) :=
  match x_step o (co_rpc c) with Some (r, e) => Some (co_set r e c, e) | None => None end.
Definition co_do (o : xop) (c : wcon) : wcon := match co_step o c with Some (c', _) => c' | None => c end.
(** A session of client [x] of process [p] that the client still has. *)
Definition is_con (p x : nat) (c : wcon) : bool := (co_open c && Nat.eqb (co_proc c) p && Nat.eqb (co_x c) x)%bool.
Definition modern (c : wcon) : bool := negb (Z.eqb (ss_proto (co_ses c)) 0).
Definition on_srv (i : nat) (c : wcon) : bool := match co_srv c with Some j => Nat.eqb j i | None => false end.
Definition failed (c : wcon) : bool := match c_phase (x_cli (co_rpc c)) with PFailed => true | _ => false end.

(** The sessions that an operation of the discovery has made (m_client_map, 711-749). *)
Definition had (n : dnet) (p x : nat) (k : text) : bool :=
  match aget p (dn_procs n) with
  | Some q => match aget x (px_cli q) with Some d => amem k (cx_ses d) | None => false end
  | None => false
  end.
Definition made (n : dnet) (p x : nat) (d : dcli) : list wcon :=
  flat_map (fun kz => if had n p x (fst kz) then [] else [co_new p x (cx_name d) (fst kz) (snd kz)]) (cx_ses d).
Definition opened (o : dop) (n n' : dnet) : list wcon :=
  match o with
  | DAt p _ => match aget p (dn_procs n') with Some q => flat_map (fun xd => made n p (fst xd) (snd xd)) (px_cli q) | None => [] end
  | DStart _ _ => []
  end.
Definition ws_disc (o : dop) (s : wsv) : option wsv :=
  match dn_step o (ws_net s) with
  | Some n => Some (Wsv n (ws_hist s ++ [o]) (ws_insts s) (ws_cons s ++ opened o (ws_net s) n))
  | None => None
  end.

(** ** Steps *)
Definition with_insts (l : list winst) (s : wsv) : wsv := Wsv (ws_net s) (ws_hist s) l (ws_cons s).
Definition with_cons (l : list wcon) (s : wsv) : wsv := Wsv (ws_net s) (ws_hist s) (ws_insts s) l.
(** CServiceServerImpl::Start 63-137. *)
Definition ws_serve (p x : nat) (c : dcfg) (e : dsrv) (s : wsv) : wsv := with_insts (ws_insts s ++ [wi_new p x c e]) s.
(** CServiceServerImpl::Stop 139-173. *)
Definition srv_ends (p x : nat) (l : list winst) (c : wcon) : bool :=
  match co_srv c with Some i => match nth_error l i with Some t => is_srv p x t | None => false end | None => false end.
Definition ws_end (p x : nat) (s : wsv) : wsv :=
  Wsv (ws_net s) (ws_hist s) (map (fun t => if is_srv p x t then wi_down t else t) (ws_insts s))
    (map (fun c => if srv_ends p x (ws_insts s) c then co_do XLost c else c) (ws_cons s)).
(** CServiceClientImpl::Stop 100-131: the sessions are deleted, ClientSession::~ClientSession stops them. *)
Definition ws_go (p x : nat) (s : wsv) : wsv :=
  with_cons (map (fun c => if is_con p x c then co_close (co_do (XClient CStop) c) else c) (ws_cons s)) s.
(** The server [i] performs a step; all its connections see it, except [skip], which has caused it. *)
Definition skips (skip : option nat) (j : nat) : bool := match skip with Some n => Nat.eqb n j | None => false end.
Definition ws_perform (skip : option nat) (i : nat) (op : mop) (s : wsv) : option wsv :=
  match nth_error (ws_insts s) i with
  | Some t =>
      match m_step op (wi_state t) with
      | Some (v, ev) =>
          Some (Wsv (ws_net s) (ws_hist s)
            (upd i (WInst (wi_proc t) (wi_x t) (wi_cfg t) (wi_srv t) (wi_up t) v (wi_tr t ++ XDo op :: map XSrv ev)) (ws_insts s))
            (mapi (fun j c => if (on_srv i c && negb (skips skip j))%bool then co_do (XServer op) c else c) 0 (ws_cons s)))
      | None => None
      end
  | None => None
  end.
(** CheckForDisconnectedServices 751-780 sees the state FAILED of a session. *)
Definition ws_note (c c' : wcon) (s : wsv) : option wsv :=
  if (co_open c' && failed c' && negb (failed c))%bool then ws_disc (DAt (co_proc c') (PFail (co_x c') (co_key c'))) s else Some s.
(** What a session and its connection may do by themselves (a session is stopped only when its client goes). *)
Definition legal (o : xop) (c : wcon) : bool :=
  match o with
  | XClient (CConnect true) | XClient CStop | XCall _ | XServer _ => false
  | XClient _ | XClientByte => true
  | XServerByte | XLost => match co_srv c with Some _ => true | None => false end
  end.
(** connect_to_endpoint 162-236: may the session be connected to this server?  All endpoints of a
    session have the same host, by its name or its name with ".local". *)
Definition reaches (c : wcon) (t : winst) : bool :=
  match c_phase (x_cli (co_rpc c)), ss_ends (co_ses c) with
  | PConnecting _, (h, pt) :: _ =>
      (wi_up t && eqb h (pc_host (wi_cfg t)) && Z.eqb pt (sx_port1 (wi_cfg t) (wi_srv t)) && negb (Z.eqb pt 0))%bool
  | _, _ => false
  end.
Definition co_bind (i : nat) (t : winst) (c : wcon) : wcon :=
  WCon_ (co_proc c) (co_x c) (co_name c) (co_key c) (co_ses c) (co_open c) (Some i) (set_server (wi_state t) (co_rpc c)) (wi_tr t ++ co_tr c).
(** Call, CallAsync and CallBlocking 302-393, 440-570: one request for every session. *)
Definition is_target (p x : nat) (l : list (text * dses)) (c : wcon) : bool :=
  (is_con p x c && modern c && amem (co_key c) l)%bool.
Definition ws_ask (p x : nat) (l : list (text * dses)) (bs : list Z) (s : wsv) : wsv :=
  with_cons (map (fun c => if is_target p x l c then co_do (XCall bs) c else c) (ws_cons s)) s.
Definition the_client (n : dnet) (p x : nat) : option (dproc * dcli) :=
  match aget p (dn_procs n) with Some q => match aget x (px_cli q) with Some d => Some (q, d) | None => None end | None => None end.

Inductive wop :=
| WNet (o : dop)                           (* discovery; creating and destroying servers and clients *)
| WCall (p x : nat) (m req : text)         (* client [x] of process [p] calls method [m] *)
| WCon (n : nat) (o : xop)                 (* session [n] or its connection does something *)
| WConnect (n i : nat)                     (* session [n] is connected to server [i] *)
| WDo (i : nat) (op : mop)                 (* the user or a thread of server [i] does something *)
| WOld (i : nat) (bs : list Z).            (* a request from outside reaches server [i] *)
(** None: the step is not possible. *)
Definition ws_step (o : wop) (s : wsv) : option wsv :=
  match o with
  | WNet (DAt p (PServe x name id r) as o) =>
      match aget p (dn_procs (ws_net s)) with
      | Some q =>
          match aget x (px_srv q) with
          | None =>
              if bindable (px_cfg q) (DSrv name id r) (ws_insts s)
              then match ws_disc o s with Some s1 => Some (ws_serve p x (px_cfg q) (DSrv name id r) s1) | None => None end
              else None
          | Some _ => ws_disc o s
          end
      | None => ws_disc o s
      end
  | WNet (DAt p (PEnd x) as o) => match ws_disc o s with Some s1 => Some (ws_end p x s1) | None => None end
  | WNet (DAt p (PGo x) as o) => match ws_disc o s with Some s1 => Some (ws_go p x s1) | None => None end
  | WNet (DAt _ (PFail _ _)) | WNet (DAt _ (PCall _)) => None
  | WNet o => ws_disc o s
  | WCall p x m req =>
      match the_client (ws_net s) p x with
      | Some (_, d) =>
          if (is_nil (cx_name d) || is_nil m)%bool then Some s
          else
            match ws_disc (DAt p (PCall x)) s with
            | Some s1 =>
                match the_client (ws_net s1) p x with
                | Some (q, d1) => Some (ws_ask p x (cx_targets (px_reg q) d1) (call_bytes m req) s1)
                | None => Some s1
                end
            | None => None
            end
      | None => Some s
      end
  | WCon n o =>
      match nth_error (ws_cons s) n with
      | Some c =>
          if (legal o c && modern c)%bool then
            match co_step o c with
            | Some (c', e) =>
                let s1 := with_cons (upd n c' (ws_cons s)) s in
                match e, co_srv c with
                | XTake _ bs :: _, Some i => match ws_perform (Some n) i (MRequest bs) s1 with Some s2 => ws_note c c' s2 | None => None end
                | _, _ => ws_note c c' s1
                end
            | None => None
            end
          else None
      | None => None
      end
  | WConnect n i =>
      match nth_error (ws_cons s) n, nth_error (ws_insts s) i with
      | Some c, Some t =>
          match co_srv c with
          | None =>
              if (reaches c t && modern c)%bool then
                match co_step (XClient (CConnect true)) (co_bind i t c) with
                | Some (c', _) => Some (with_cons (upd n c' (ws_cons s)) s)
                | None => None
                end
              else None
          | Some _ => None
          end
      | _, _ => None
      end
  | WDo i op => match op with MRequest _ => None | _ => ws_perform None i op s end
  | WOld i bs => ws_perform None i (MRequest bs) s
  end.
Fixpoint ws_run (l : list wop) (s : wsv) : option wsv :=
  match l with [] => Some s | o :: l' => match ws_step o s with Some s' => ws_run l' s' | None => None end end.
