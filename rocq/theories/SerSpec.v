(** Vocabulary for the serialization properties: which values the C++ types can hold, what
    of a sample is transmitted, and the wire format of each message. *)
From Verif Require Import Base Sample PbModel PbSpec SerModel.
From Coq Require Import Sorting.Sorted.

(** ** Values of the C++ types *)
(** A cmd_type is one of the enumerators or another number of the enum's type. *)
Definition wf_cmd (c : cmd) : Prop :=
  forall z, c = bct_other z -> u32 z /\ ~ In z [0; 1; 2; 3; 4; 5; 6; 12; 13; 14; 15; 16]%Z.
Definition wf_header (h : header) : Prop := i32 (h_id h) /\ u32 (h_state h).
Definition wf_request (r : request) : Prop := wf_header (rq_header r).
Definition wf_response (r : response) : Prop := wf_header (rp_header r) /\ i64 (rp_ret r).
Definition wf_psample (p : psample) : Prop :=
  wf_cmd (ps_cmd p) /\ i64 (ps_id p) /\ i64 (ps_clock p) /\ i64 (ps_time p) /\ i64 (ps_hash p) /\ i32 (ps_size p).
(** std::map<std::string, std::string>: ascending keys. *)
Inductive tless : text -> text -> Prop :=
| tless_nil y b : tless [] (y :: b)
| tless_lt x y a b : (x < y)%Z -> tless (x :: a) (y :: b)
| tless_eq x a b : tless a b -> tless (x :: a) (x :: b).
Definition is_map (m : list (text * text)) : Prop := StronglySorted tless (map fst m).

Definition wf_method (m : method) : Prop := i64 (me_count m).
Definition wf_layer (l : tlayer) : Prop := i32 (ly_version l) /\ i32 (ly_port l).
Definition wf_process (p : process) : Prop :=
  i32 (pr_rclock p) /\ u32 (pr_severity p) /\ u32 (pr_severity_level p) /\ u32 (pr_tsync_state p) /\ i32 (pr_comp_state p).
Definition wf_service (s : service) : Prop :=
  i32 (sv_rclock s) /\ Forall wf_method (sv_methods s) /\ u32 (sv_version s) /\ u32 (sv_port0 s) /\ u32 (sv_port1 s).
Definition wf_client (c : client) : Prop :=
  i32 (cl_rclock c) /\ Forall wf_method (cl_methods c) /\ u32 (cl_version c).
Definition wf_topic (t : topic) : Prop :=
  i32 (tp_rclock t) /\ Forall wf_layer (tp_layers t) /\ i32 (tp_tsize t) /\ i32 (tp_conn_loc t) /\ i32 (tp_conn_ext t) /\
  i32 (tp_drops t) /\ i64 (tp_did t) /\ i64 (tp_dclock t) /\ i32 (tp_dfreq t) /\ is_map (tp_attr t).
Definition wf_sample (s : sample) : Prop :=
  wf_cmd (sm_cmd s) /\ i32 (sm_pid s) /\ wf_process (sm_process s) /\ wf_service (sm_service s) /\
  wf_client (sm_client s) /\ wf_topic (sm_topic s).
Definition wf_log (l : logmsg) : Prop := i64 (lg_time l) /\ i32 (lg_pid l) /\ i32 (lg_level l).
Definition mon_layer (l : tlayer) : Prop := ly_enabled l = false /\ ly_port l = 0%Z /\ ly_memfiles l = [].
Definition wf_mtopic (dir : text) (x : text * Z * text * topic) : Prop :=
  let '(_, pid, _, t) := x in i32 pid /\ wf_topic t /\ Forall mon_layer (tp_layers t) /\ tp_direction t = dir.
Definition wf_mon (m : monitoring) : Prop :=
  Forall (fun x => let '(_, pid, p) := x in i32 pid /\ wf_process p) (mn_processes m) /\
  Forall (wf_mtopic (str "publisher")) (mn_publisher m) /\
  Forall (wf_mtopic (str "subscriber")) (mn_subscriber m) /\
  Forall (fun x => let '(_, pid, _, s) := x in i32 pid /\ wf_service s) (mn_server m) /\
  Forall (fun x => let '(_, pid, _, c) := x in i32 pid /\ wf_client c) (mn_clients m).

(** ** What of a registration sample arrives *)
(** The command, the host name, and of a sample about a process, service, client or topic
    the identifier and this part; not the operating system name, and not the entity id of a
    process. *)
Definition arrives (s : sample) : sample :=
  let c := sm_cmd s in
  if is_prc_cmd c then Sample [] (sm_pid s) (sm_host s) c (sm_hname s) [] (sm_process s) service0 client0 topic0
  else if is_srv_cmd c then
    Sample (sm_entity s) (sm_pid s) (sm_host s) c (sm_hname s) [] process0 (sm_service s) client0 topic0
  else if is_cli_cmd c then
    Sample (sm_entity s) (sm_pid s) (sm_host s) c (sm_hname s) [] process0 service0 (sm_client s) topic0
  else if (is_pub_cmd c || is_sub_cmd c)%bool then
    Sample (sm_entity s) (sm_pid s) (sm_host s) c (sm_hname s) [] process0 service0 client0 (sm_topic s)
  else Sample [] 0 [] c (sm_hname s) [] process0 service0 client0 topic0.

(** ** Wire formats *)
Definition w_header (h : header) : list wfield :=
  wstr 1 (h_hname h) ++ wstr 2 (h_sname h) ++ wstr 3 (h_mname h) ++ wstr 4 (h_error h) ++
  wnum 5 (h_id h) ++ wnum 6 (h_state h) ++ wstr 7 (h_sid h).
Definition w_ptopic (p : psample) : list wfield := wstr 2 (ps_hname p) ++ wstr 6 (ps_tid p) ++ wstr 7 (ps_tname p).
Definition w_pcontent (p : psample) : list wfield :=
  wnum 1 (ps_id p) ++ wnum 2 (ps_clock p) ++ wnum 3 (ps_time p) ++ wstr 4 (ps_payload p) ++ wnum 6 (ps_size p) ++ wnum 7 (ps_hash p).
Definition w_state (p : process) : list wfield :=
  wnum 1 (pr_severity p) ++ wstr 2 (pr_info p) ++ wnum 3 (pr_severity_level p).
Definition w_process (host : text) (pid : Z) (p : process) (state : list Z) : list wfield :=
  wnum 1 (pr_rclock p) ++ wstr 2 host ++ wnum 3 pid ++ wstr 4 (pr_pname p) ++ wstr 5 (pr_uname p) ++ wstr 6 (pr_pparam p) ++
  [WBytes 12 state] ++ wnum 13 (pr_tsync_state p) ++ wstr 14 (pr_tsync_mod p) ++ wnum 15 (pr_comp_state p) ++
  wstr 16 (pr_comp_info p) ++ wstr 17 (pr_version p) ++ wstr 18 (pr_hgname p).
Definition w_method (m : method) : list wfield :=
  wstr 1 (me_name m) ++ wstr 2 (me_req_type m) ++ wstr 3 (me_resp_type m) ++ wnum 4 (me_count m) ++
  wstr 5 (me_req_desc m) ++ wstr 6 (me_resp_desc m).
Definition w_service (host : text) (pid : Z) (eid : text) (s : service) (methods : list (list Z)) : list wfield :=
  wnum 1 (sv_rclock s) ++ wstr 2 host ++ wstr 3 (sv_pname s) ++ wstr 4 (sv_uname s) ++ wnum 5 pid ++ wstr 6 (sv_sname s) ++
  wnum 7 (sv_port0 s) ++ map (WBytes 8) methods ++ wstr 9 eid ++ wnum 10 (sv_version s) ++ wnum 11 (sv_port1 s).
Definition w_client (host : text) (pid : Z) (eid : text) (c : client) (methods : list (list Z)) : list wfield :=
  wnum 1 (cl_rclock c) ++ wstr 2 host ++ wstr 3 (cl_pname c) ++ wstr 4 (cl_uname c) ++ wnum 5 pid ++ wstr 6 (cl_sname c) ++
  wstr 7 eid ++ wnum 8 (cl_version c) ++ map (WBytes 9) methods.
Definition w_layer (l : tlayer) (par : list Z) : list wfield :=
  wnum 1 (match ly_type l with tl_none => 0 | tl_udp => 1 | tl_shm => 4 | tl_tcp => 5 | tl_all => 255 end) ++
  wnum 2 (ly_version l) ++ wnum 3 (if ly_active l then 1 else 0) ++ [WBytes 5 par] ++ wnum 6 (if ly_enabled l then 1 else 0).
Definition w_attr (kv : text * text) : list wfield := wstr 1 (fst kv) ++ wstr 2 (snd kv).
Definition w_datatype (d : datatype) : list wfield := wstr 1 (dt_name d) ++ wstr 2 (dt_encoding d) ++ wstr 3 (dt_desc d).
Definition w_topic (host : text) (pid : Z) (eid : text) (t : topic) (layers attrs : list (list Z)) (dt : list Z) : list wfield :=
  wnum 1 (tp_rclock t) ++ wstr 2 host ++ wnum 3 pid ++ wstr 4 (tp_pname t) ++ wstr 5 (tp_uname t) ++ wstr 6 eid ++
  wstr 7 (tp_tname t) ++ wstr 8 (tp_direction t) ++ map (WBytes 12) layers ++ wnum 13 (tp_tsize t) ++ wnum 16 (tp_conn_loc t) ++
  wnum 17 (tp_conn_ext t) ++ wnum 18 (tp_drops t) ++ wnum 19 (tp_did t) ++ wnum 20 (tp_dclock t) ++ wnum 21 (tp_dfreq t) ++
  map (WBytes 27) attrs ++ wstr 28 (tp_hgname t) ++ [WBytes 30 dt].
(** The number of a command on the wire. *)
Definition w_cmd (c : cmd) : Z :=
  match c with
  | bct_none => 0 | bct_set_sample => 1 | bct_reg_publisher => 2 | bct_reg_subscriber => 3 | bct_reg_process => 4
  | bct_reg_service => 5 | bct_reg_client => 6 | bct_unreg_publisher => 12 | bct_unreg_subscriber => 13
  | bct_unreg_process => 14 | bct_unreg_service => 15 | bct_unreg_client => 16 | bct_other z => z
  end.
Definition w_log (l : logmsg) : list wfield :=
  wnum 1 (lg_time l) ++ wstr 2 (lg_hname l) ++ wnum 3 (lg_pid l) ++ wstr 4 (lg_pname l) ++ wstr 5 (lg_uname l) ++
  wnum 6 (lg_level l) ++ wstr 7 (lg_content l).
(** The connection parameters of a layer: memory files and tcp port. *)
Definition layer_bytes (l : tlayer) (b : list Z) : Prop :=
  exists shm tcp par, wire (map (WBytes 1) (ly_memfiles l)) shm /\ wire (wnum 1 (ly_port l)) tcp /\
    wire [WBytes 2 shm; WBytes 4 tcp] par /\ wire (w_layer l par) b.
(** The submessage of a sample that belongs to its command. *)
Definition sample_part (s : sample) (k : Z) (b : list Z) : Prop :=
  let c := sm_cmd s in
  (is_prc_cmd c = true /\ k = 3%Z /\ exists st, wire (w_state (sm_process s)) st /\ wire (w_process (sm_host s) (sm_pid s) (sm_process s) st) b) \/
  (is_srv_cmd c = true /\ k = 4%Z /\ exists ms, Forall2 (fun m b => wire (w_method m) b) (sv_methods (sm_service s)) ms /\
     wire (w_service (sm_host s) (sm_pid s) (sm_entity s) (sm_service s) ms) b) \/
  ((is_pub_cmd c || is_sub_cmd c)%bool = true /\ k = 5%Z /\ exists ls ats dt, Forall2 layer_bytes (tp_layers (sm_topic s)) ls /\
     Forall2 (fun a b => wire (w_attr a) b) (tp_attr (sm_topic s)) ats /\ wire (w_datatype (tp_dtype (sm_topic s))) dt /\
     wire (w_topic (sm_host s) (sm_pid s) (sm_entity s) (sm_topic s) ls ats dt) b) \/
  (is_cli_cmd c = true /\ k = 7%Z /\ exists ms, Forall2 (fun m b => wire (w_method m) b) (cl_methods (sm_client s)) ms /\
     wire (w_client (sm_host s) (sm_pid s) (sm_entity s) (sm_client s) ms) b).
(** A string that is not transmitted when it is empty, received into a used variable. *)
Definition keep (old new : text) : text := match new with [] => old | _ => new end.
