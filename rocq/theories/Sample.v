(** Data types of registration and payload samples.
    ecal/core/src/serialization/ecal_struct_sample_common.h,
    ecal_struct_sample_registration.h, ecal_struct_service.h and
    ecal_struct_sample_payload.h.  Strings are byte sequences (as std::string is). *)
From Verif Require Import Base.

Notation text := (list Z).
(** Write a byte string as a Coq string (for examples). *)
Definition str (s : string) : text := map (fun a => Z.of_nat (nat_of_ascii a)) (list_ascii_of_string s).

(** eCmdType, ecal_struct_sample_common.h 29-43.  [bct_other] stands for any value
    that is not an enumerator. *)
Inductive cmd :=
| bct_none | bct_set_sample
| bct_reg_publisher | bct_reg_subscriber | bct_reg_process | bct_reg_service | bct_reg_client
| bct_unreg_publisher | bct_unreg_subscriber | bct_unreg_process | bct_unreg_service | bct_unreg_client
| bct_other (z : Z).
#[export] Instance EqDec_cmd : EqDec cmd.
Proof. intros x y. decide equality. apply Z.eq_dec. Defined.

(** eTLayerType, ecal_struct_sample_common.h 45-52. *)
Inductive ltype := tl_none | tl_udp | tl_shm | tl_tcp | tl_all.
#[export] Instance EqDec_ltype : EqDec ltype.
Proof. intros x y. decide equality. Defined.

(** TLayer with its ConnectionPar, ecal_struct_sample_registration.h 90-122. *)
Record tlayer := TLayer {
  ly_type : ltype; ly_version : Z; ly_enabled : bool; ly_active : bool;
  ly_port : Z; ly_memfiles : list text }.

(** SDataTypeInformation (ecal_types.h). *)
Record datatype := DataType { dt_name : text; dt_encoding : text; dt_desc : text }.
#[export] Instance EqDec_datatype : EqDec datatype.
Proof. intros [a b c] [a' b' c']; destruct (eq_dec (a, b, c) (a', b', c')) as [E|N]; [left|right]; congruence. Defined.

(** Topic, ecal_struct_sample_registration.h 141-163. *)
Record topic := Topic {
  tp_rclock : Z; tp_hgname : text; tp_pname : text; tp_uname : text; tp_tname : text; tp_direction : text;
  tp_dtype : datatype; tp_layers : list tlayer; tp_tsize : Z;
  tp_conn_loc : Z; tp_conn_ext : Z; tp_drops : Z;
  tp_did : Z; tp_dclock : Z; tp_dfreq : Z; tp_attr : list (text * text) }.

(** Method, Service, Client, ecal_struct_service.h 71-103. *)
Record method := Method {
  me_name : text; me_req_type : text; me_req_desc : text; me_resp_type : text; me_resp_desc : text; me_count : Z }.
Record service := Service {
  sv_rclock : Z; sv_pname : text; sv_uname : text; sv_sname : text; sv_methods : list method;
  sv_version : Z; sv_port0 : Z; sv_port1 : Z }.
Record client := Client {
  cl_rclock : Z; cl_pname : text; cl_uname : text; cl_sname : text; cl_methods : list method; cl_version : Z }.

(** Process with its ProcessState, ecal_struct_sample_registration.h 82-87 and 125-138. *)
Record process := Process {
  pr_rclock : Z; pr_hgname : text; pr_pname : text; pr_uname : text; pr_pparam : text;
  pr_severity : Z; pr_severity_level : Z; pr_info : text;
  pr_tsync_state : Z; pr_tsync_mod : text; pr_comp_state : Z; pr_comp_info : text; pr_version : text }.

(** Sample with SampleIdentifier and Host, ecal_struct_sample_registration.h 66-71 and 165-182. *)
Record sample := Sample {
  sm_entity : text; sm_pid : Z; sm_host : text;
  sm_cmd : cmd; sm_hname : text; sm_osname : text;
  sm_process : process; sm_service : service; sm_client : client; sm_topic : topic }.

(** Default-initialised values. *)
Definition dt0 := DataType [] [] [].
Definition topic0 := Topic 0 [] [] [] [] [] dt0 [] 0 0 0 0 0 0 0 [].
Definition service0 := Service 0 [] [] [] [] 0 0 0.
Definition client0 := Client 0 [] [] [] [] 0.
Definition process0 := Process 0 [] [] [] [] 0 0 [] 0 [] 0 [] [].
Definition sample0 := Sample [] 0 [] bct_none [] [] process0 service0 client0 topic0.

(** Does the command carry a topic? *)
Definition is_pub_cmd (c : cmd) := match c with bct_reg_publisher | bct_unreg_publisher => true | _ => false end.
Definition is_sub_cmd (c : cmd) := match c with bct_reg_subscriber | bct_unreg_subscriber => true | _ => false end.
Definition is_srv_cmd (c : cmd) := match c with bct_reg_service | bct_unreg_service => true | _ => false end.
Definition is_cli_cmd (c : cmd) := match c with bct_reg_client | bct_unreg_client => true | _ => false end.
Definition is_prc_cmd (c : cmd) := match c with bct_reg_process | bct_unreg_process => true | _ => false end.
