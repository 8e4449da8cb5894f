(** Vocabulary for discovery between processes. *)
From Verif Require Import Base Sample ExpMapModel ConnModel WrModel PbModel PbSpec SerModel SerSpec UdpModel GateModel NetModel.

(** The operations lead to this state of all processes and of the network. *)
Definition reach (ops : list nop) (s : net) : Prop := net_run ops net0 = Some s.
(** The values the C++ types can hold. *)
Definition sane_op (o : nop) : Prop :=
  match o with
  | NStart _ c => i32 (nc_pid c)
  | NCreate _ _ _ _ _ r | NTouch _ _ _ r => wf_topic r
  | _ => True
  end.
Definition sane (ops : list nop) : Prop := Forall sane_op ops.
(** No registration has 4 GiB. *)
Definition fits (s : net) : Prop := forall m, In m (nt_sent s) -> (len (ser_sample m) < 2 ^ 32)%Z.

(** In process [p] with settings [c] there is the publisher or subscriber [x], and this is what it holds. *)
Definition here (s : net) (p : nat) (sd : side) (x : nat) (c : ncfg) (e : nend) : Prop :=
  exists q, aget p (nt_procs s) = Some q /\ np_cfg q = c /\ aget x (hf_ends (np_half sd q)) = Some e.
Definition other (sd : side) : side := match sd with PubSide => SubSide | SubSide => PubSide end.
(** It counts [k] among its counterparts, with data type and layers [v]. *)
Definition lists (e : nend) (k : subinfo) (v : nval) : Prop := In (k, v) (em_contents (cn_map (ne_conn e))).
(** By this a publisher or subscriber is known to others. *)
Definition key (c : ncfg) (e : nend) : subinfo := SubInfo (nc_host c) (nc_pid c) (ne_id e).
(** Data type and enabled layers (layers of old versions do not tell whether they are enabled). *)
Definition offered (ty : ltype) (r : topic) : Prop :=
  exists y, In y (tp_layers r) /\ ly_type y = ty /\ (ly_enabled y = true \/ (ly_version y < 2)%Z).
Definition offers (r : topic) (v : nval) : Prop :=
  fst v = tp_dtype r /\ (sl_udp (snd v) = true <-> offered tl_udp r) /\ (sl_shm (snd v) = true <-> offered tl_shm r) /\
  (sl_tcp (snd v) = true <-> offered tl_tcp r).
(** A process with settings [c] listens to the registrations of such a process: in its own host
    group to all but its own (these with loopback), of other groups in network mode. *)
Definition hears (c : ncfg) (host group : text) (pid : Z) : Prop :=
  let g := match group with [] => host | _ => group end in
  (g = nc_group c /\ g <> [] /\ (pid <> nc_pid c \/ nc_loopback c = true)) \/
  (~ (g = nc_group c /\ g <> []) /\ nc_network c = true).
Definition hears_from (c c' : ncfg) : Prop := hears c (nc_host c') (nc_group c') (nc_pid c').

(** Of whom a datagram tells. *)
Definition sender (m : sample) : subinfo := SubInfo (sm_host m) (sm_pid m) (sm_entity m).
Definition heard (c : ncfg) (m : sample) : Prop := hears c (sm_host m) (tp_hgname (sm_topic m)) (sm_pid m).
(** The datagram is the registration of this publisher or subscriber. *)
Definition reg_cmd (sd : side) : cmd := match sd with PubSide => bct_reg_publisher | SubSide => bct_reg_subscriber end.
Definition unreg_cmd (sd : side) : cmd := match sd with PubSide => bct_unreg_publisher | SubSide => bct_unreg_subscriber end.
Definition about (c : ncfg) (e : nend) (m : sample) : Prop :=
  sm_entity m = ne_id e /\ sm_pid m = nc_pid c /\ sm_host m = nc_host c /\ tp_hgname (sm_topic m) = nc_group c /\
  tp_tname (sm_topic m) = ne_name e.
Definition announces (c : ncfg) (sd : side) (e : nend) (m : sample) : Prop :=
  sm_cmd m = reg_cmd sd /\ about c e m /\ tp_dtype (sm_topic m) = tp_dtype (ne_rest e) /\ tp_layers (sm_topic m) = tp_layers (ne_rest e).
Definition withdraws (c : ncfg) (sd : side) (e : nend) (m : sample) : Prop := sm_cmd m = unreg_cmd sd /\ about c e m.
(** It has a counterpart that, seen from it, is where [host] is: on its own host or on another. *)
Definition counts_some (c : ncfg) (e : nend) (host : text) : Prop :=
  exists k v, lists e k v /\ (si_host k = nc_host c <-> nc_host c = host).
Definition few (e : nend) : Prop := (Z.of_nat (length (em_contents (cn_map (ne_conn e)))) < 2 ^ 31)%Z.
(** What a subscriber on host [host] takes for a connection. *)
Definition confirms (host : text) (m : sample) : Prop :=
  (sm_host m = host /\ (0 < tp_conn_loc (sm_topic m))%Z) \/ (sm_host m <> host /\ (0 < tp_conn_ext (sm_topic m))%Z).

(** The times at which process [p] looks at its clock; it never goes back. *)
Definition times (p : nat) (ops : list nop) : list Z :=
  flat_map (fun o => match o with
                     | NCollect p' t | NDeliver p' _ t => if Nat.eqb p' p then [t] else []
                     | _ => []
                     end) ops.
Fixpoint ascending (l : list Z) : Prop :=
  match l with [] => True | t :: l' => (forall u, In u l' -> (t <= u)%Z) /\ ascending l' end.
Definition steady (p : nat) (ops : list nop) : Prop := ascending (times p ops).

(** ** Example: two processes on two hosts *)
Definition n_ty : datatype := DataType (str "T") (str "proto") [].
Definition n_pr : topic := Topic 0 [] (str "a") (str "a") [] [] n_ty [] 0 0 0 0 0 0 0 [].
Definition n_sr : topic := Topic 0 [] (str "b") (str "b") [] [] n_ty [TLayer tl_udp 2 true false 0 []; TLayer tl_shm 2 false false 0 []] 0 0 0 0 0 0 0 [].
Definition n_ca : ncfg := NCfg (str "h1") (str "h1") 11 true false 10.
Definition n_cb : ncfg := NCfg (str "h2") (str "h2") 12 true false 10.
Definition n_cc : ncfg := NCfg (str "h2") (str "h2") 13 true false 10.
Definition n_setup : list nop :=
  [NStart 1 n_ca; NStart 2 n_cb; NCreate 1 PubSide 0 (str "t") (str "100") n_pr; NCreate 2 SubSide 0 (str "t") (str "200") n_sr].
(** The subscriber announces itself, is heard, the publisher answers, and is heard. *)
Definition n_shake : list nop := n_setup ++ [NCollect 2 0; NDeliver 1 0 1; NCollect 1 2; NDeliver 2 1 3].
(** The subscriber goes, its withdrawal arrives, then its old registration once more. *)
Definition n_late : list nop := n_setup ++ [NCollect 2 0; NDeliver 1 0 1; NDestroy 2 SubSide 0; NFlush 2; NDeliver 1 1 2; NDeliver 1 0 3].
(** A second subscriber on the host of the first is never heard by the publisher, but hears its registration. *)
Definition n_crowd : list nop :=
  n_setup ++ [NStart 3 n_cc; NCreate 3 SubSide 0 (str "t") (str "300") n_sr; NCollect 2 0; NDeliver 1 0 1; NCollect 1 2; NDeliver 3 1 3].
(** Two processes of one host group on two hosts, by chance with the same process id. *)
Definition n_g1 : ncfg := NCfg (str "h1") (str "g") 1 true false 10.
Definition n_g2 : ncfg := NCfg (str "h2") (str "g") 1 true false 10.
Definition n_twins : list nop :=
  [NStart 1 n_g1; NStart 2 n_g2; NCreate 1 PubSide 0 (str "t") (str "100") n_pr; NCreate 2 SubSide 0 (str "t") (str "200") n_sr; NCollect 2 0].
(** For examples: the counterparts of an object after these operations. *)
Definition n_parts (ops : list nop) (p : nat) (sd : side) (x : nat) : option (list subinfo) :=
  match net_run ops net0 with
  | Some s =>
      match aget p (nt_procs s) with
      | Some q => match aget x (hf_ends (np_half sd q)) with Some e => Some (map fst (em_contents (cn_map (ne_conn e)))) | None => None end
      | None => None
      end
  | None => None
  end.
