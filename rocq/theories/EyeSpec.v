(** Vocabulary for what a monitor sees: entities as they are, datagrams about them, entries. *)
From Verif Require Import Base Sample PbModel PbSpec SerModel SerSpec DscModel DscSpec MonModel MonSpec EyeModel.

Section Eye.
Variable compile : text -> option (text -> bool).
(** The operations lead to this state of all processes and of the network. *)
Definition yreach (ops : list yop) (s : ynet) : Prop := yn_run compile ops ynet0 = DOk s.
(** Filters: every pattern is well formed, and patterns that differ only in case mean the same. *)
Definition good_filters (c : ycfg) : Prop :=
  let off p := listed_pattern (yc_excl c) p \/ listed_pattern (yc_incl c) p in
  (forall p, off p -> compile p <> None) /\
  (forall p q, off p -> off q -> same_letters p q -> forall n, matches compile p n <-> matches compile q n).
(** The filters let a topic of this name pass. *)
Definition passes (c : ycfg) (name : text) : Prop := selects compile (listed_pattern (yc_excl c)) (listed_pattern (yc_incl c)) name.
Definition lets_in (c : ycfg) (k : kind) (m : sample) : Prop :=
  match k with KPublisher | KSubscriber => passes c (called k m) | _ => True end.
End Eye.

(** The values the C++ types can hold. *)
Definition wf_body (b : ybody) : Prop :=
  match b with
  | YPub t | YSub t => wf_topic t
  | YSrv v => Forall wf_method (sv_methods v) /\ u32 (sv_version v) /\ (0 <= sv_port0 v < 2 ^ 16)%Z /\ (0 <= sv_port1 v < 2 ^ 16)%Z
  | YCli v => Forall wf_method (cl_methods v) /\ u32 (cl_version v)
  end.
Definition ysane_op (o : yop) : Prop :=
  match o with
  | YStart _ c r => i32 (yc_pid c) /\ wf_process r
  | YState _ r => wf_process r
  | YMake _ _ o => wf_body (yo_body o)
  | YTouch _ _ b => wf_body b
  | _ => True
  end.
Definition ysane (ops : list yop) : Prop := Forall ysane_op ops.
(** No registration has 4 GiB. *)
Definition yfits (s : ynet) : Prop := forall m, In m (yn_sent s) -> (len (ser_sample m) < 2 ^ 32)%Z.
(** Every process is started with good filters. *)
Definition well_configured (compile : text -> option (text -> bool)) (ops : list yop) : Prop :=
  forall p c r, In (YStart p c r) ops -> good_filters compile c.

(** ** Entities *)
(** Process [p] runs with settings [c] and is in state [r]; in it there is entity [x]. *)
Definition running (s : ynet) (p : nat) (c : ycfg) (r : process) : Prop :=
  exists q, aget p (yn_procs s) = Some q /\ yp_cfg q = c /\ yp_self q = r.
Definition in_process (s : ynet) (p x : nat) (c : ycfg) (r : process) (o : yobj) : Prop :=
  exists q, aget p (yn_procs s) = Some q /\ yp_cfg q = c /\ yp_self q = r /\ aget x (yp_objs q) = Some o.
Definition kind_of (b : ybody) : kind := match b with YPub _ => KPublisher | YSub _ => KSubscriber | YSrv _ => KServer | YCli _ => KClient end.
(** A server listens on a port for every protocol the process has switched on. *)
Definition all_ears (c : ycfg) (v : service) : Prop :=
  (yc_v0 c = true -> sv_port0 v <> 0%Z) /\ (yc_v1 c = true -> sv_port1 v <> 0%Z).

(** ** Datagrams *)
Definition from (c : ycfg) (id : text) (m : sample) : Prop := sm_host m = yc_host c /\ sm_pid m = yc_pid c /\ sm_entity m = id.
(** The datagram describes the process / the entity as it is. *)
Definition describes_process (c : ycfg) (r : process) (m : sample) : Prop :=
  let d := sm_process m in
  from c [] m /\ pr_pname d = yc_pname c /\ pr_hgname d = yc_group c /\ pr_uname d = pr_uname r /\ pr_pparam d = pr_pparam r /\
  pr_severity d = pr_severity r /\ pr_severity_level d = pr_severity_level r /\ pr_info d = pr_info r /\
  pr_tsync_state d = pr_tsync_state r /\ pr_tsync_mod d = pr_tsync_mod r /\ pr_comp_state d = pr_comp_state r /\
  pr_comp_info d = pr_comp_info r /\ pr_version d = pr_version r.
Definition describes (c : ycfg) (r : process) (o : yobj) (m : sample) : Prop :=
  from c (yo_id o) m /\
  match yo_body o with
  | YPub t =>
      let d := sm_topic m in
      tp_tname d = yo_name o /\ tp_hgname d = yc_group c /\ tp_pname d = yc_pname c /\ tp_uname d = pr_uname r /\
      tp_dtype d = tp_dtype t /\ tp_layers d = tp_layers t /\ tp_tsize d = tp_tsize t /\ tp_conn_loc d = tp_conn_loc t /\
      tp_conn_ext d = tp_conn_ext t /\ tp_did d = tp_did t /\ tp_dclock d = tp_dclock t /\ tp_dfreq d = tp_dfreq t /\ tp_attr d = tp_attr t
  | YSub t =>
      let d := sm_topic m in
      tp_tname d = yo_name o /\ tp_hgname d = yc_group c /\ tp_pname d = yc_pname c /\ tp_uname d = pr_uname r /\
      tp_dtype d = tp_dtype t /\ tp_layers d = tp_layers t /\ tp_tsize d = tp_tsize t /\ tp_conn_loc d = 0%Z /\
      tp_conn_ext d = 0%Z /\ tp_drops d = tp_drops t /\ tp_dclock d = tp_dclock t /\ tp_dfreq d = tp_dfreq t /\ tp_attr d = tp_attr t
  | YSrv v =>
      let d := sm_service m in
      sv_sname d = yo_name o /\ sv_pname d = yc_pname c /\ sv_uname d = pr_uname r /\ sv_methods d = sv_methods v /\
      sv_port0 d = (if yc_v0 c then sv_port0 v else 0%Z) /\ sv_port1 d = (if yc_v1 c then sv_port1 v else 0%Z)
  | YCli v =>
      let d := sm_client m in
      cl_sname d = yo_name o /\ cl_pname d = yc_pname c /\ cl_uname d = pr_uname r /\ cl_methods d = cl_methods v
  end.
(** It says nothing: no name, id, host, process. *)
Definition blank (m : sample) : Prop := sm_host m = [] /\ sm_pid m = 0%Z /\ sm_entity m = [] /\ sm_service m = service0.
(** A process with settings [c] listens to datagrams of this kind from such a process: those from
    its own host group are heard unless they are its own (these with loopback), others in network
    mode.  The host group counts for topics only; for the others the host name stands for it. *)
Definition about_topic (k : kind) : Prop := k = KPublisher \/ k = KSubscriber.
Definition group_in (k : kind) (m : sample) : text :=
  match k with KPublisher | KSubscriber => match tp_hgname (sm_topic m) with [] => sm_host m | g => g end | _ => sm_host m end.
Definition listens (c : ycfg) (k : kind) (m : sample) : Prop :=
  let g := group_in k m in
  (g = yc_group c /\ g <> [] /\ (sm_pid m <> yc_pid c \/ yc_loopback c = true)) \/
  (~ (g = yc_group c /\ g <> []) /\ yc_network c = true).

(** ** Entries of a listing *)
Inductive yentry :=
| EProcess (e : text * Z * process) | EPublisher (e : text * Z * text * topic) | ESubscriber (e : text * Z * text * topic)
| EServer (e : text * Z * text * service) | EClient (e : text * Z * text * client).
Definition rows (k : kind) (l : monitoring) : list yentry :=
  match k with
  | KProcess => map EProcess (mn_processes l) | KPublisher => map EPublisher (mn_publisher l)
  | KSubscriber => map ESubscriber (mn_subscriber l) | KServer => map EServer (mn_server l) | KClient => map EClient (mn_clients l)
  end.
(** The entry shows this datagram, the n-th about its entity. *)
Definition shows (n : Z) (m : sample) (e : yentry) : Prop :=
  match e with
  | EProcess e => shows_process n m e | EPublisher e => shows_topic (str "publisher") n m e | ESubscriber e => shows_topic (str "subscriber") n m e
  | EServer e => shows_server n m e | EClient e => shows_client n m e
  end.
(** The name it is kept under (see C46). *)
Definition row_label (e : yentry) : text :=
  match e with
  | EProcess e => pr_pname (snd e) ++ int_text (snd (fst e))
  | EPublisher e | ESubscriber e => tp_tname (snd e) ++ snd (fst e)
  | EServer e => sv_sname (snd e) ++ snd (fst e) ++ int_text (snd (fst (fst e)))
  | EClient e => cl_sname (snd e) ++ snd (fst e) ++ int_text (snd (fst (fst e)))
  end.

(** ** Runs *)
(** The times at which process [p] looks at its clock; it never goes back. *)
Definition ytimes (p : nat) (ops : list yop) : list Z :=
  flat_map (fun o => match o with
                     | YHear p' _ t | YLook p' _ t => if Nat.eqb p' p then [t] else []
                     | _ => []
                     end) ops.
Definition ysteady (p : nat) (ops : list yop) (now : Z) : Prop := upwards (ytimes p ops ++ [now]).
(** Process [p] lives on. *)
Definition lives (p : nat) (ops : list yop) : Prop := ~ In (YKill p) ops.
(** At some moment of the run an entity of this kind was as the datagram [m] says: a process, or an
    entity of a process; or it was a server that does not listen on a port, and the datagram is blank. *)
Definition was_so (compile : text -> option (text -> bool)) (ops : list yop) (k : kind) (m : sample) : Prop :=
  exists ops1 ops2 s1 p, ops = ops1 ++ ops2 /\ yreach compile ops1 s1 /\
    ((exists c r, k = KProcess /\ running s1 p c r /\ describes_process c r m) \/
     (exists x c r o, k = kind_of (yo_body o) /\ in_process s1 p x c r o /\
        (describes c r o m \/ (blank m /\ exists v, yo_body o = YSrv v /\ ~ all_ears c v)))).
(** In [l], which comes after [ops0], process [p] was handed the datagram [m] at time [t]. *)
Definition handed (compile : text -> option (text -> bool)) (ops0 l : list yop) (p : nat) (t : Z) (m : sample) : Prop :=
  exists la i lb s1, l = la ++ YHear p i t :: lb /\ yreach compile (ops0 ++ la) s1 /\ nth_error (yn_sent s1) i = Some m.

(** ** Examples *)
Definition y_any (p : text) : option (text -> bool) := literal p.
Definition y_self : process := Process 0 [] [] (str "u") [] 1 1 (str "fine") 0 [] 15 [] (str "v5").
Definition y_sick : process := Process 0 [] [] (str "u") [] 3 1 (str "sick") 0 [] 15 [] (str "v5").
Definition y_top : topic := Topic 0 [] [] [] [] [] (DataType (str "T") (str "proto") []) [TLayer tl_shm 2 true true 0 []] 8 1 0 0 0 5 1000 [].
Definition y_svc (p0 p1 : Z) : service := Service 0 [] [] [] [] 1 p0 p1.
Definition y_ca : ycfg := YCfg (str "h1") (str "h1") 11 (str "a") true false true true 5000 [] [].
Definition y_cb : ycfg := YCfg (str "h2") (str "h2") 12 (str "mon") true false true true 5000 [] [].
Definition y_setup : list yop :=
  [YStart 1 y_ca y_self; YStart 2 y_cb y_self; YMake 1 0 (YObj (str "t") (str "100") (YPub y_top));
   YMake 1 1 (YObj (str "s") (str "200") (YSrv (y_svc 4000 4001)))].
(** One cycle of process 1 and the arrival of its datagrams: process, publisher, server. *)
Definition y_seen : list yop := y_setup ++ [YCollect 1; YHear 2 0 1000; YHear 2 1 1000; YHear 2 2 1001].
(** The publisher goes and its withdrawal arrives; then its old registration once more. *)
Definition y_gone : list yop := y_seen ++ [YEnd 1 0; YFlush 1; YHear 2 3 2000].
Definition y_late : list yop := y_gone ++ [YHear 2 1 2500].
(** The state of the process changes; the datagrams arrive in the wrong order. *)
Definition y_stale : list yop := y_setup ++ [YCollect 1; YState 1 y_sick; YCollect 1; YHear 2 3 1000; YHear 2 0 1001].
(** Two processes of one name on two hosts, by chance with the same process id. *)
Definition y_c1 : ycfg := YCfg (str "h1") (str "h1") 1 (str "a") true false true true 5000 [] [].
Definition y_c2 : ycfg := YCfg (str "h2") (str "h2") 1 (str "a") true false true true 5000 [] [].
Definition y_c3 : ycfg := YCfg (str "h3") (str "h3") 7 (str "mon") true false true true 5000 [] [].
Definition y_twins : list yop :=
  [YStart 1 y_c1 y_self; YStart 2 y_c2 y_self; YStart 3 y_c3 y_self; YCollect 1; YCollect 2; YHear 3 0 1000; YHear 3 1 1000].
(** A server one of whose ports could not be opened. *)
Definition y_mute : list yop :=
  [YStart 1 y_ca y_self; YStart 2 y_cb y_self; YMake 1 0 (YObj (str "s") (str "200") (YSrv (y_svc 4000 0))); YCollect 1; YHear 2 1 1000].
(** A host group of two hosts, without network mode. *)
Definition y_g1 : ycfg := YCfg (str "h1") (str "g") 11 (str "a") false false true true 5000 [] [].
Definition y_g2 : ycfg := YCfg (str "h2") (str "g") 12 (str "mon") false false true true 5000 [] [].
Definition y_group : list yop :=
  [YStart 1 y_g1 y_self; YStart 2 y_g2 y_self; YMake 1 0 (YObj (str "t") (str "100") (YPub y_top));
   YMake 1 1 (YObj (str "s") (str "200") (YSrv (y_svc 4000 4001))); YCollect 1; YHear 2 0 1001; YHear 2 1 1001; YHear 2 2 1001].
(** A process ends in an orderly way: its last cycle says that it is there and that it goes. *)
Definition y_last : list yop := y_setup ++ [YStop 1; YCollect 1; YFlush 1; YKill 1].
(** For examples: the labels of a listing of everything. *)
Definition y_rows (ops : list yop) (p : nat) (now : Z) : option (list (list text)) :=
  match yn_run y_any ops ynet0 with
  | DOk s => match y_view s p now 63 with
             | Some l => Some (map (fun k => map row_label (rows k l)) [KProcess; KPublisher; KSubscriber; KServer; KClient])
             | None => None
             end
  | _ => None
  end.

Definition y_end (ops : list yop) : ynet := match yn_run y_any ops ynet0 with DOk s => s | _ => ynet0 end.
Definition y_list (ops : list yop) (p : nat) (now : Z) : monitoring := match y_view (y_end ops) p now 63 with Some l => l | None => Mon [] [] [] [] [] end.
(** Nobody says anything in these operations. *)
Definition hushed (ops : list yop) : Prop := Forall (fun o => match o with YHear _ _ _ | YLook _ _ _ => True | _ => False end) ops.
(** A run to its end, and a listing of everything in process [p] there. *)
Definition y_run_of (ops : list yop) (s : ynet) (p : nat) (now : Z) (l : monitoring) : Prop :=
  ysane ops /\ well_configured y_any ops /\ yreach y_any ops s /\ yfits s /\ ysteady p ops now /\ y_view s p now 63 = Some l.
