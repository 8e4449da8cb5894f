(** Vocabulary for the discovery of services. *)
From Verif Require Import Base Sample ExpMapModel PbModel PbSpec SerModel SerSpec UdpModel SdsModel.

(** The operations lead to this state of all processes and of the network. *)
Definition dreach (ops : list dop) (s : dnet) : Prop := dn_run ops dnet0 = Some s.
(** The values the C++ types can hold: ports have 16 bits. *)
Definition port (z : Z) : Prop := (0 <= z < 2 ^ 16)%Z.
Definition dsane_op (o : dop) : Prop :=
  match o with
  | DStart _ c => i32 (pc_pid c)
  | DAt _ (PServe _ _ _ r) => Forall wf_method (sv_methods r) /\ u32 (sv_version r) /\ port (sv_port0 r) /\ port (sv_port1 r)
  | DAt _ (PMethods _ ms) => Forall wf_method ms
  | _ => True
  end.
Definition dsane (ops : list dop) : Prop := Forall dsane_op ops.
(** No registration has 4 GiB. *)
Definition dfits (s : dnet) : Prop := forall m, In m (dn_sent s) -> (len (ser_sample m) < 2 ^ 32)%Z.

(** In process [p] with settings [c] there is the server [x] / the client [x]. *)
Definition server (s : dnet) (p x : nat) (c : dcfg) (e : dsrv) : Prop :=
  exists q, aget p (dn_procs s) = Some q /\ px_cfg q = c /\ aget x (px_srv q) = Some e.
Definition client_of (s : dnet) (p x : nat) (c : dcfg) (d : dcli) : Prop :=
  exists q, aget p (dn_procs s) = Some q /\ px_cfg q = c /\ aget x (px_cli q) = Some d.
Definition runs (s : dnet) (p : nat) (c : dcfg) : Prop := exists q, aget p (dn_procs s) = Some q /\ px_cfg q = c.
(** Process [p] knows this service. *)
Definition knows (s : dnet) (p : nat) (a : dattr) : Prop :=
  exists q, aget p (dn_procs s) = Some q /\ In (ca_key a, a) (em_contents (px_reg q)).
(** A client counts it among its connected services; it has this session under that key. *)
Definition counts (d : dcli) (a : dattr) : Prop := In (ca_key a, a) (cx_conn d).
Definition session (d : dcli) (k : text) (z : dses) : Prop := In (k, z) (cx_ses d).
(** The sessions to which a call of the client goes. *)
Definition calls (s : dnet) (p x : nat) (l : list (text * dses)) : Prop :=
  exists q d, aget p (dn_procs s) = Some q /\ aget x (px_cli q) = Some d /\ l = cx_targets (px_reg q) d.

(** A server listens on a port for every protocol the process has switched on. *)
Definition listening (c : dcfg) (e : dsrv) : Prop :=
  (pc_v0 c = true -> sv_port0 (sx_rest e) <> 0%Z) /\ (pc_v1 c = true -> sv_port1 (sx_rest e) <> 0%Z).
(** What others learn of it. *)
Definition facts (c : dcfg) (e : dsrv) : dattr :=
  DAttr (sx_name e) (sx_id e) (pc_pid c) (pc_host c) (sv_pname (sx_rest e)) (sv_uname (sx_rest e)) (sv_version (sx_rest e))
    (if pc_v0 c then sv_port0 (sx_rest e) else 0) (if pc_v1 c then sv_port1 (sx_rest e) else 0).
(** An entry without name, host and ports. *)
Definition nobody : dattr := DAttr [] [] 0 [] [] [] 0 0 0.
(** To which host and port, by which protocol, a session to a service leads. *)
Definition leads (z : dses) (host : text) (pt proto : Z) : Prop :=
  ss_proto z = proto /\ ss_ends z = [(host, pt); (host ++ str ".local", pt)].
(** Which of its ports: that of the newer protocol if it has one (and says it speaks it). *)
Definition best (a : dattr) (pt proto : Z) : Prop :=
  (ca_port1 a <> 0%Z /\ ca_version a <> 0%Z /\ pt = ca_port1 a /\ proto = (ca_version a mod 256)%Z) \/
  ((ca_port1 a = 0%Z \/ ca_version a = 0%Z) /\ pt = ca_port0 a /\ proto = 0%Z).

(** A process with settings [c] listens to registrations of services from this host and process:
    a host with the name of its own host group counts as near, all others as far. *)
Definition near (c : dcfg) (host : text) : Prop := host = pc_group c /\ host <> [].
Definition minds (c : dcfg) (host : text) (pid : Z) : Prop :=
  (near c host /\ (pid <> pc_pid c \/ pc_loopback c = true)) \/ (~ near c host /\ pc_network c = true).

(** The datagram is a registration of a service, of this server. *)
Definition registers (m : sample) : Prop := sm_cmd m = bct_reg_service.
Definition tells (c : dcfg) (e : dsrv) (m : sample) : Prop :=
  registers m /\ sm_entity m = sx_id e /\ sm_pid m = pc_pid c /\ sm_host m = pc_host c /\
  sv_sname (sm_service m) = sx_name e /\ sv_pname (sm_service m) = sv_pname (sx_rest e) /\ sv_uname (sm_service m) = sv_uname (sx_rest e) /\
  sv_methods (sm_service m) = sv_methods (sx_rest e) /\
  sv_version (sm_service m) = sv_version (sx_rest e) /\ sv_port0 (sm_service m) = ca_port0 (facts c e) /\ sv_port1 (sm_service m) = ca_port1 (facts c e).
Definition told (a : dattr) (m : sample) : Prop :=
  registers m /\ sm_entity m = ca_id a /\ sm_pid m = ca_pid a /\ sm_host m = ca_host a /\ sv_sname (sm_service m) = ca_name a /\
  sv_pname (sm_service m) = ca_pname a /\ sv_uname (sm_service m) = ca_uname a /\ sv_version (sm_service m) = ca_version a /\
  sv_port0 (sm_service m) = ca_port0 a /\ sv_port1 (sm_service m) = ca_port1 a.
(** A service by its identity. *)
Definition same_service (a b : dattr) : Prop := ca_name a = ca_name b /\ ca_id a = ca_id b /\ ca_pid a = ca_pid b /\ ca_host a = ca_host b.
(** Names as they occur: ids of digits, hence without colon; no at-sign in host names; process ids not negative. *)
Definition colon : Z := 58.
Definition at_sign : Z := 64.
Definition plain (a : dattr) : Prop := ~ In colon (ca_id a) /\ ~ In at_sign (ca_host a) /\ (0 <= ca_pid a < 2 ^ 31)%Z.

(** Deliveries to process [p] at a time; its clock never goes back. *)
Definition dtimes (p : nat) (ops : list dop) : list Z :=
  flat_map (fun o => match o with DAt p' (PHear _ t) => if Nat.eqb p' p then [t] else [] | _ => [] end) ops.
Fixpoint rising (l : list Z) : Prop :=
  match l with [] => True | t :: l' => (forall u, In u l' -> (t <= u)%Z) /\ rising l' end.
Definition dsteady (p : nat) (ops : list dop) : Prop := rising (dtimes p ops).

(** ** Examples: a server on one host, clients on it and on another *)
Definition d_srv (p0 p1 : Z) : service := Service 0 (str "a") (str "u") [] [] 1 p0 p1.
Definition d_ca : dcfg := DCfg (str "h1") (str "h1") 11 true false true true.
Definition d_cb : dcfg := DCfg (str "h2") (str "h2") 12 true false true true.
Definition d_cc : dcfg := DCfg (str "h2") (str "h2") 13 true false true true.
Definition d_setup : list dop :=
  [DStart 1 d_ca; DStart 2 d_cb; DAt 1 (PServe 0 (str "s") (str "100") (d_srv 4000 4001)); DAt 2 (PClient 0 (str "s"))].
Definition d_found : list dop := d_setup ++ [DAt 1 PCollect; DAt 2 (PHear 0 1000)].
(** The server goes, its withdrawal is sent and arrives. *)
Definition d_gone : list dop := d_found ++ [DAt 2 PCollect; DAt 1 (PEnd 0); DAt 1 PFlush; DAt 2 (PHear 1 2000)].
(** Two servers in one process; it registers every six seconds, and its datagrams need some time. *)
Definition d_slow : list dop :=
  d_setup ++ [DStart 3 d_cc; DAt 3 (PServe 0 (str "s") (str "300") (d_srv 5000 5001));
    DAt 1 PCollect; DAt 2 (PHear 0 0); DAt 3 PCollect; DAt 2 (PHear 1 500);
    DAt 1 PCollect; DAt 2 (PHear 2 6000)].
(** A server dies before the client has opened a session, and another makes the table forget it. *)
Definition d_lost : list dop :=
  d_found ++ [DAt 1 (PEnd 0); DStart 3 d_cc; DAt 3 (PServe 0 (str "other") (str "300") (d_srv 5000 5001)); DAt 3 PCollect;
    DAt 2 (PHear 1 7000); DAt 2 PCollect; DAt 2 (PCall 0)].
(** One host with a host group of another name, without network mode. *)
Definition d_g1 : dcfg := DCfg (str "h1") (str "g") 11 false false true true.
Definition d_g2 : dcfg := DCfg (str "h1") (str "g") 12 false false true true.
Definition d_group : list dop :=
  [DStart 1 d_g1; DStart 2 d_g2; DAt 1 (PServe 0 (str "s") (str "100") (d_srv 4000 4001)); DAt 2 (PClient 0 (str "s"));
   DAt 1 PCollect; DAt 2 (PHear 0 1); DAt 2 (PCall 0)].
(** A host group, network mode, no loopback: server and client in one process. *)
Definition d_g3 : dcfg := DCfg (str "h1") (str "g") 11 true false true true.
Definition d_self : list dop :=
  [DStart 1 d_g3; DAt 1 (PServe 0 (str "s") (str "100") (d_srv 4000 4001)); DAt 1 (PClient 0 (str "s"));
   DAt 1 PCollect; DAt 1 (PHear 0 1); DAt 1 (PCall 0)].
(** A server one of whose ports could not be opened. *)
Definition d_mute : list dop :=
  [DStart 1 d_ca; DStart 2 d_cb; DAt 1 (PServe 0 (str "s") (str "100") (d_srv 4000 0)); DAt 2 (PClient 0 (str "s"));
   DAt 1 PCollect; DAt 2 (PHear 0 1); DAt 2 (PCall 0)].
(** The client is created after the registration has arrived. *)
Definition d_late : list dop :=
  [DStart 1 d_ca; DStart 2 d_cb; DAt 1 (PServe 0 (str "s") (str "100") (d_srv 4000 4001)); DAt 1 PCollect; DAt 2 (PHear 0 1000);
   DAt 2 (PClient 0 (str "s")); DAt 2 (PCall 0)].
(** The server is heard, registers again and is heard again in time. *)
Definition d_first : list dop := d_setup ++ [DAt 1 PCollect].
Definition d_second : list dop := [DAt 2 (PHear 0 1000); DAt 1 PCollect; DAt 2 (PHear 1 2000); DAt 2 PCollect].
(** For examples: what is known, what a client counts and calls. *)
Definition d_view (ops : list dop) (p x : nat) : option (list dattr * bool * list dses) :=
  match dn_run ops dnet0 with
  | Some s =>
      match aget p (dn_procs s) with
      | Some q =>
          match aget x (px_cli q) with
          | Some d => Some (map snd (em_contents (px_reg q)), cx_connected d, map snd (cx_targets (px_reg q) d))
          | None => None
          end
      | None => None
      end
  | None => None
  end.
Definition d_fact (id : text) (pid : Z) (host : text) (p0 p1 : Z) : dattr := DAttr (str "s") id pid host (str "a") (str "u") 1 p0 p1.
Definition d_ses (host : text) (pt : Z) : dses := DSes 1 [(host, pt); (host ++ str ".local", pt)] false.
(** At some moment of the run a server existed of which [a] tells the truth and which a process with
    settings [c] listens to; or one that listened on no port and told nothing. *)
Definition real (ops : list dop) (c : dcfg) (a : dattr) : Prop :=
  exists ops1 ops2 s1 p x c' e, ops = ops1 ++ ops2 /\ dreach ops1 s1 /\ server s1 p x c' e /\
    ((listening c' e /\ a = facts c' e /\ minds c (pc_host c') (pc_pid c')) \/ (~ listening c' e /\ a = nobody /\ pc_network c = true)).
(** The client takes this service: its host filter is empty or names the host. *)
Definition takes (d : dcli) (a : dattr) : Prop := ca_name a = cx_name d /\ (cx_host d = [] \/ cx_host d = ca_host a).
(** No other server ever had the identity of this one. *)
Definition one_of_its_kind (ops : list dop) (c : dcfg) (a : dattr) : Prop :=
  forall b, real ops c b -> ca_key b = ca_key a -> ca_host b = ca_host a /\ ca_version b = ca_version a /\ ca_port0 b = ca_port0 a /\ ca_port1 b = ca_port1 a.
