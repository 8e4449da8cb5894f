(** The serialization functions of eCAL over the wire format of [PbModel]:
    ecal/core/src/serialization/ecal_serialize_common.cpp, ecal_serialize_service.cpp,
    ecal_serialize_sample_payload.cpp, ecal_serialize_sample_registration.cpp,
    ecal_serialize_logging.cpp, ecal_serialize_monitoring.cpp, and the message
    descriptions in serialization/nanopb/ecal/core/pb/*.pb.h. *)
From Verif Require Import Base Sample PbModel.
Local Open Scope Z_scope.

(** ** Descriptors (the FIELDLIST macros) *)
(** service.pb.h *)
Definition d_header : desc :=
  [(1, FCallStr); (2, FCallStr); (3, FCallStr); (4, FCallStr); (5, FI32); (6, FU32); (7, FCallStr)].
Definition d_request : desc := [(1, FMsg d_header); (2, FCallStr)].
Definition d_response : desc := [(1, FMsg d_header); (2, FCallStr); (3, FI64)].
Definition d_method : desc :=
  [(1, FCallStr); (2, FCallStr); (3, FCallStr); (4, FI64); (5, FCallStr); (6, FCallStr)].
Definition d_service : desc :=
  [(1, FI32); (2, FCallStr); (3, FCallStr); (4, FCallStr); (5, FI32); (6, FCallStr); (7, FU32); (8, FCallMsg d_method);
   (9, FCallStr); (10, FU32); (11, FU32)].
Definition d_client : desc :=
  [(1, FI32); (2, FCallStr); (3, FCallStr); (4, FCallStr); (5, FI32); (6, FCallStr); (7, FCallStr); (8, FU32);
   (9, FCallMsg d_method)].
(** host.pb.h, process.pb.h *)
Definition d_osinfo : desc := [(1, FCallStr)].
Definition d_host : desc := [(1, FCallStr); (2, FMsg d_osinfo)].
Definition d_state : desc := [(1, FU32); (2, FCallStr); (3, FU32)].
Definition d_process : desc :=
  [(1, FI32); (2, FCallStr); (3, FI32); (4, FCallStr); (5, FCallStr); (6, FCallStr); (12, FMsg d_state); (13, FU32);
   (14, FCallStr); (15, FI32); (16, FCallStr); (17, FCallStr); (18, FCallStr)].
(** layer.pb.h, datatype.pb.h, topic.pb.h *)
Definition d_par_shm : desc := [(1, FCallStr)].
Definition d_par_tcp : desc := [(1, FI32)].
Definition d_par : desc := [(1, FMsg []); (2, FMsg d_par_shm); (4, FMsg d_par_tcp)].
Definition d_layer : desc := [(1, FU32); (2, FI32); (3, FBool); (5, FMsg d_par); (6, FBool)].
Definition d_datatype : desc := [(1, FCallStr); (2, FCallStr); (3, FCallStr)].
Definition d_attr : desc := [(1, FCallStr); (2, FCallStr)].
Definition d_topic : desc :=
  [(1, FI32); (2, FCallStr); (3, FI32); (4, FCallStr); (5, FCallStr); (6, FCallStr); (7, FCallStr); (8, FCallStr);
   (12, FCallMsg d_layer); (13, FI32); (16, FI32); (17, FI32); (18, FI32); (19, FI64); (20, FI64); (21, FI32);
   (27, FCallMsg d_attr); (28, FCallStr); (30, FMsg d_datatype)].
(** ecal.pb.h *)
Definition d_content : desc := [(1, FI64); (2, FI64); (3, FI64); (4, FCallStr); (6, FI32); (7, FI64)].
Definition d_sample : desc :=
  [(1, FU32); (2, FMsg d_host); (3, FMsg d_process); (4, FMsg d_service); (5, FMsg d_topic); (6, FMsg d_content);
   (7, FMsg d_client); (8, FCallStr)].
Definition d_samples : desc := [(1, FCallMsg d_sample)].
(** logging.pb.h, monitoring.pb.h *)
Definition d_log : desc := [(1, FI64); (2, FCallStr); (3, FI32); (4, FCallStr); (5, FCallStr); (6, FI32); (7, FCallStr)].
Definition d_logs : desc := [(1, FCallMsg d_log)].
Definition d_mon : desc :=
  [(1, FCallMsg d_host); (2, FCallMsg d_process); (3, FCallMsg d_service); (4, FCallMsg d_topic); (5, FCallMsg d_client)].

(** ** Building and reading structs *)
(** encode_string 54-60 (and encode_bytes of SNanoBytes 98-104): nothing for an empty one. *)
Definition cb (s : text) : fval := match s with [] => VNull | _ => VStr s end.
(** decode_string 74-78. *)
Definition ds : fval := VStr [].
(** A submessage with has_ = false; its content is not looked at. *)
Definition no_msg : fval := VMsg false [].
Definition bit (b : bool) : Z := if b then 1 else 0.
(** Numbered access to a struct. *)
Definition fi (n : nat) (m : list fval) : Z := match nth n m VNull with VInt z => z | _ => 0 end.
Definition fs (n : nat) (m : list fval) : text := match nth n m VNull with VStr s => s | _ => [] end.
Definition fm (n : nat) (m : list fval) : list fval := match nth n m VNull with VMsg _ x => x | _ => [] end.
Definition fss (n : nat) (m : list fval) : list text := match nth n m VNull with VStrs l => l | _ => [] end.
Definition fms (n : nat) (m : list fval) : list (list fval) := match nth n m VNull with VMsgs _ l => l | _ => [] end.

(** Deserialize functions return false for an empty buffer. *)
Definition deserialize {A} (d : desc) (t : list fval) (f : list fval -> A) (bs : list Z) : res A :=
  match bs with [] => Fail | _ => do m <- pb_decode d t bs; Ok (f m) end.

(** ** Service requests and responses, ecal_serialize_service.cpp *)
(** eMethodCallState, ServiceHeader, Request, Response, ecal_struct_service.h 31-67. *)
Record header := Header { h_hname : text; h_sname : text; h_sid : text; h_mname : text; h_error : text; h_id : Z; h_state : Z }.
Record request := Request { rq_header : header; rq_request : text }.
Record response := Response { rp_header : header; rp_response : text; rp_ret : Z }.
(** The header part of 39-64 and 165-190. *)
Definition pb_header (h : header) : list fval :=
  [cb (h_hname h); cb (h_sname h); cb (h_mname h); cb (h_error h); VInt (h_id h); VInt (h_state h); cb (h_sid h)].
Definition t_header : list fval := [ds; ds; ds; ds; VInt 0; VInt 0; ds].
Definition header_of (m : list fval) : header :=
  Header (fs 0 m) (fs 1 m) (fs 6 m) (fs 2 m) (fs 3 m) (fi 4 m) (fi 5 m).
(** RequestStruct2Buffer 78-105, Buffer2RequestStruct 107-163. *)
Definition pb_request (r : request) : list fval := [VMsg true (pb_header (rq_header r)); cb (rq_request r)].
Definition ser_request (r : request) : list Z := enc_msg d_request (pb_request r).
Definition de_request : list Z -> res request :=
  deserialize d_request [VMsg false t_header; ds] (fun m => Request (header_of (fm 0 m)) (fs 1 m)).
(** ResponseStruct2Buffer, Buffer2ResponseStruct 165-300. *)
Definition pb_response (r : response) : list fval := [VMsg true (pb_header (rp_header r)); cb (rp_response r); VInt (rp_ret r)].
Definition ser_response (r : response) : list Z := enc_msg d_response (pb_response r).
Definition de_response : list Z -> res response :=
  deserialize d_response [VMsg false t_header; ds; VInt 0]
    (fun m => Response (header_of (fm 0 m)) (fs 1 m) (fi 2 m)).

(** ** Enumerations *)
(** eCmdType, ecal_struct_sample_common.h 29-43. *)
Definition cmd_code (c : cmd) : Z :=
  match c with
  | bct_none => 0 | bct_set_sample => 1 | bct_reg_publisher => 2 | bct_reg_subscriber => 3 | bct_reg_process => 4
  | bct_reg_service => 5 | bct_reg_client => 6
  | bct_unreg_publisher => 12 | bct_unreg_subscriber => 13 | bct_unreg_process => 14
  | bct_unreg_service => 15 | bct_unreg_client => 16
  | bct_other z => z
  end.
Definition cmd_of (z : Z) : cmd :=
  if Z.eqb z 0 then bct_none else if Z.eqb z 1 then bct_set_sample
  else if Z.eqb z 2 then bct_reg_publisher else if Z.eqb z 3 then bct_reg_subscriber
  else if Z.eqb z 4 then bct_reg_process else if Z.eqb z 5 then bct_reg_service
  else if Z.eqb z 6 then bct_reg_client
  else if Z.eqb z 12 then bct_unreg_publisher else if Z.eqb z 13 then bct_unreg_subscriber
  else if Z.eqb z 14 then bct_unreg_process else if Z.eqb z 15 then bct_unreg_service
  else if Z.eqb z 16 then bct_unreg_client else bct_other z.
(** eTLayerType 45-52.  Simplified: a number that is no enumerator becomes [tl_none]; all
    users switch over the enumerators and do nothing for others. *)
Definition lt_code (l : ltype) : Z :=
  match l with tl_none => 0 | tl_udp => 1 | tl_shm => 4 | tl_tcp => 5 | tl_all => 255 end.
Definition lt_of (z : Z) : ltype :=
  if Z.eqb z 1 then tl_udp else if Z.eqb z 4 then tl_shm else if Z.eqb z 5 then tl_tcp
  else if Z.eqb z 255 then tl_all else tl_none.

(** ** Payload samples, ecal_serialize_sample_payload.cpp *)
(** Payload::Sample, ecal_struct_sample_payload.h 37-80; the payload is given by its bytes
    (pl_raw and pl_vec are encoded alike, CreatePayloadStruct 39-66). *)
Record psample := PSample {
  ps_cmd : cmd; ps_hname : text; ps_tid : text; ps_tname : text;
  ps_id : Z; ps_clock : Z; ps_time : Z; ps_hash : Z; ps_size : Z; ps_payload : list Z; ps_padding : list Z }.
Definition psample0 := PSample bct_none [] [] [] 0 0 0 0 0 [] [].
(** A Topic of which only hname, tid and tname are given. *)
Definition pl_topic (hname tid tname : fval) : list fval :=
  [VInt 0; hname; VInt 0; VNull; VNull; tid; tname; VNull; VNull; VInt 0; VInt 0; VInt 0; VInt 0; VInt 0; VInt 0; VInt 0;
   VNull; VNull; VMsg false [VNull; VNull; VNull]].
(** PayloadStruct2PbSample 68-104, PayloadStruct2Buffer 106-137. *)
Definition pb_psample (p : psample) : list fval :=
  [VInt (cmd_code (ps_cmd p)); no_msg; no_msg; no_msg;
   VMsg true (pl_topic (cb (ps_hname p)) (cb (ps_tid p)) (cb (ps_tname p)));
   VMsg true [VInt (ps_id p); VInt (ps_clock p); VInt (ps_time p); cb (ps_payload p); VInt (ps_size p); VInt (ps_hash p)];
   no_msg; VStr (ps_padding p)].
Definition ser_payload (p : psample) : list Z := enc_msg d_sample (pb_psample p).
(** Structs of which nothing is decoded (all callbacks unset). *)
Definition z_host : list fval := [VNull; VMsg false [VNull]].
Definition z_process : list fval :=
  [VInt 0; VNull; VInt 0; VNull; VNull; VNull; VMsg false [VInt 0; VNull; VInt 0]; VInt 0; VNull; VInt 0; VNull; VNull; VNull].
Definition z_service : list fval := [VInt 0; VNull; VNull; VNull; VInt 0; VNull; VInt 0; VNull; VNull; VInt 0; VInt 0].
Definition z_client : list fval := [VInt 0; VNull; VNull; VNull; VInt 0; VNull; VNull; VInt 0; VNull].
(** Buffer2PayloadStruct 139-188, into an existing struct [t]: strings and vectors that are
    not in the buffer keep their content. *)
Definition t_psample (t : psample) : list fval :=
  [VInt 0; VMsg false z_host; VMsg false z_process; VMsg false z_service;
   VMsg false (pl_topic (VStr (ps_hname t)) (VStr (ps_tid t)) (VStr (ps_tname t)));
   VMsg false [VInt 0; VInt 0; VInt 0; VStr (ps_payload t); VInt 0; VInt 0];
   VMsg false z_client; VStr (ps_padding t)].
Definition psample_of (m : list fval) : psample :=
  PSample (cmd_of (fi 0 m)) (fs 1 (fm 4 m)) (fs 5 (fm 4 m)) (fs 6 (fm 4 m))
    (fi 0 (fm 5 m)) (fi 1 (fm 5 m)) (fi 2 (fm 5 m)) (fi 5 (fm 5 m)) (fi 4 (fm 5 m)) (fs 3 (fm 5 m)) (fs 7 m).
Definition de_payload_into (t : psample) : list Z -> res psample := deserialize d_sample (t_psample t) psample_of.
Definition de_payload : list Z -> res psample := de_payload_into psample0.

(** ** Parts shared by registration and monitoring *)
(** encode/decode_service_methods_field, ecal_serialize_common.cpp 343-414. *)
Definition pb_method (m : method) : list fval :=
  [cb (me_name m); cb (me_req_type m); cb (me_resp_type m); VInt (me_count m); cb (me_req_desc m); cb (me_resp_desc m)].
Definition t_method : list fval := [ds; ds; ds; VInt 0; ds; ds].
Definition method_of (m : list fval) : method := Method (fs 0 m) (fs 1 m) (fs 4 m) (fs 2 m) (fs 5 m) (fi 3 m).
(** encode/decode_registration_layer_field 249-330. *)
Definition pb_layer (l : tlayer) : list fval :=
  [VInt (lt_code (ly_type l)); VInt (ly_version l); VInt (bit (ly_active l));
   VMsg true [VMsg false []; VMsg true [VStrs (ly_memfiles l)]; VMsg true [VInt (ly_port l)]];
   VInt (bit (ly_enabled l))].
Definition t_layer : list fval :=
  [VInt 0; VInt 0; VInt 0; VMsg false [VMsg false []; VMsg false [VStrs []]; VMsg false [VInt 0]]; VInt 0].
Definition nz (z : Z) : bool := negb (Z.eqb z 0).
Definition layer_of (m : list fval) : tlayer :=
  TLayer (lt_of (fi 0 m)) (fi 1 m) (nz (fi 4 m)) (nz (fi 2 m)) (fi 0 (fm 2 (fm 3 m))) (fss 0 (fm 1 (fm 3 m))).
(** encode/decode_map_field 142-194.  A std::map is a list of pairs in ascending order of
    the keys. *)
Fixpoint tlt (a b : text) : bool :=
  match a, b with
  | [], [] => false
  | [], _ => true
  | _, [] => false
  | x :: a', y :: b' => if Z.ltb x y then true else if Z.ltb y x then false else tlt a' b'
  end.
Fixpoint map_set (k v : text) (m : list (text * text)) : list (text * text) :=
  match m with
  | [] => [(k, v)]
  | (k', v') :: m' => if tlt k k' then (k, v) :: m else if tlt k' k then (k', v') :: map_set k v m' else (k, v) :: m'
  end.
Definition pb_attr (kv : text * text) : list fval := [cb (fst kv); cb (snd kv)].
Definition t_attr : list fval := [ds; ds].
Definition attr_of (l : list (list fval)) : list (text * text) :=
  fold_left (fun m e => map_set (fs 0 e) (fs 1 e) m) l [].

(** PrepareEncoding of a process, a service, a client and a topic,
    ecal_serialize_sample_registration.cpp 44-201; [host], [pid] and [eid] come from the
    sample identifier.  The same in ecal_serialize_monitoring.cpp 41-80, 146-191, 282-310,
    346-372, there from members of the struct. *)
Definition pb_process (host : text) (pid : Z) (p : process) : list fval :=
  [VInt (pr_rclock p); cb host; VInt pid; cb (pr_pname p); cb (pr_uname p); cb (pr_pparam p);
   VMsg true [VInt (pr_severity p); cb (pr_info p); VInt (pr_severity_level p)];
   VInt (pr_tsync_state p); cb (pr_tsync_mod p); VInt (pr_comp_state p); cb (pr_comp_info p); cb (pr_version p); cb (pr_hgname p)].
Definition t_process : list fval :=
  [VInt 0; ds; VInt 0; ds; ds; ds; VMsg false [VInt 0; ds; VInt 0]; VInt 0; ds; VInt 0; ds; ds; ds].
Definition process_of (m : list fval) : process :=
  Process (fi 0 m) (fs 12 m) (fs 3 m) (fs 4 m) (fs 5 m) (fi 0 (fm 6 m)) (fi 2 (fm 6 m)) (fs 1 (fm 6 m))
    (fi 7 m) (fs 8 m) (fi 9 m) (fs 10 m) (fs 11 m).
Definition pb_service (host : text) (pid : Z) (eid : text) (s : service) : list fval :=
  [VInt (sv_rclock s); cb host; cb (sv_pname s); cb (sv_uname s); VInt pid; cb (sv_sname s); VInt (sv_port0 s);
   VMsgs [] (map pb_method (sv_methods s)); cb eid; VInt (sv_version s); VInt (sv_port1 s)].
Definition t_service : list fval :=
  [VInt 0; ds; ds; ds; VInt 0; ds; VInt 0; VMsgs t_method []; ds; VInt 0; VInt 0].
Definition service_of (m : list fval) : service :=
  Service (fi 0 m) (fs 2 m) (fs 3 m) (fs 5 m) (map method_of (fms 7 m)) (fi 9 m) (fi 6 m) (fi 10 m).
Definition pb_client (host : text) (pid : Z) (eid : text) (c : client) : list fval :=
  [VInt (cl_rclock c); cb host; cb (cl_pname c); cb (cl_uname c); VInt pid; cb (cl_sname c); cb eid; VInt (cl_version c);
   VMsgs [] (map pb_method (cl_methods c))].
Definition t_client : list fval := [VInt 0; ds; ds; ds; VInt 0; ds; ds; VInt 0; VMsgs t_method []].
Definition client_of (m : list fval) : client :=
  Client (fi 0 m) (fs 2 m) (fs 3 m) (fs 5 m) (map method_of (fms 8 m)) (fi 7 m).
(** [pl]: how a layer is encoded. *)
Definition pb_topic (pl : tlayer -> list fval) (host : text) (pid : Z) (eid : text) (t : topic) : list fval :=
  [VInt (tp_rclock t); cb host; VInt pid; cb (tp_pname t); cb (tp_uname t); cb eid; cb (tp_tname t); cb (tp_direction t);
   VMsgs [] (map pl (tp_layers t)); VInt (tp_tsize t); VInt (tp_conn_loc t); VInt (tp_conn_ext t); VInt (tp_drops t);
   VInt (tp_did t); VInt (tp_dclock t); VInt (tp_dfreq t); VMsgs [] (map pb_attr (tp_attr t)); cb (tp_hgname t);
   VMsg true [cb (dt_name (tp_dtype t)); cb (dt_encoding (tp_dtype t)); cb (dt_desc (tp_dtype t))]].
Definition t_topic (tl : list fval) : list fval :=
  [VInt 0; ds; VInt 0; ds; ds; ds; ds; ds; VMsgs tl []; VInt 0; VInt 0; VInt 0; VInt 0; VInt 0; VInt 0; VInt 0;
   VMsgs t_attr []; ds; VMsg false [ds; ds; ds]].
Definition topic_of (lo : list fval -> tlayer) (m : list fval) : topic :=
  Topic (fi 0 m) (fs 17 m) (fs 3 m) (fs 4 m) (fs 6 m) (fs 7 m)
    (DataType (fs 0 (fm 18 m)) (fs 1 (fm 18 m)) (fs 2 (fm 18 m))) (map lo (fms 8 m)) (fi 9 m)
    (fi 10 m) (fi 11 m) (fi 12 m) (fi 13 m) (fi 14 m) (fi 15 m) (attr_of (fms 16 m)).

(** ** Registration samples, ecal_serialize_sample_registration.cpp *)
Definition is_top_cmd (c : cmd) : bool := (is_pub_cmd c || is_sub_cmd c)%bool.
(** PrepareEncoding 199-248. *)
Definition pb_sample (s : sample) : list fval :=
  let c := sm_cmd s in
  [VInt (cmd_code c);
   VMsg true [cb (sm_hname s); VMsg false [VNull]];
   (if is_prc_cmd c then VMsg true (pb_process (sm_host s) (sm_pid s) (sm_process s)) else no_msg);
   (if is_srv_cmd c then VMsg true (pb_service (sm_host s) (sm_pid s) (sm_entity s) (sm_service s)) else no_msg);
   (if is_top_cmd c then VMsg true (pb_topic pb_layer (sm_host s) (sm_pid s) (sm_entity s) (sm_topic s)) else no_msg);
   no_msg;
   (if is_cli_cmd c then VMsg true (pb_client (sm_host s) (sm_pid s) (sm_entity s) (sm_client s)) else no_msg);
   VNull].
(** RegistrationStruct2Buffer 268-294. *)
Definition ser_sample (s : sample) : list Z := enc_msg d_sample (pb_sample s).
(** PrepareDecoding 296-392. *)
Definition t_sample : list fval :=
  [VInt 0; VMsg false [ds; VMsg false [VNull]]; VMsg false t_process; VMsg false t_service; VMsg false (t_topic t_layer);
   VMsg false [VInt 0; VInt 0; VInt 0; VNull; VInt 0; VInt 0]; VMsg false t_client; VNull].
(** Several callbacks write to identifier.host_name and identifier.entity_id.  Simplified:
    the last submessage in the order of the field numbers that brings a non-empty string
    wins (submessages are written in this order). *)
Definition last_str (l : list text) : text :=
  fold_left (fun a s => match s with [] => a | _ => s end) l [].
(** AssignValues 394-466: the numbers of the part that belongs to the command; the strings
    of all parts have been written by the callbacks. *)
Definition sample_of (m : list fval) : sample :=
  let c := cmd_of (fi 0 m) in
  let pp := fm 2 m in let ss := fm 3 m in let tt := fm 4 m in let cc := fm 6 m in
  let p := process_of pp in let sv := service_of ss in let t := topic_of layer_of tt in let cl := client_of cc in
  Sample (last_str [fs 8 ss; fs 5 tt; fs 6 cc])
    (if is_prc_cmd c then fi 2 pp else if is_srv_cmd c then fi 4 ss else if is_cli_cmd c then fi 4 cc
     else if is_top_cmd c then fi 2 tt else 0)
    (last_str [fs 1 pp; fs 1 ss; fs 1 tt; fs 1 cc])
    c (fs 0 (fm 1 m)) []
    (if is_prc_cmd c then p
     else Process 0 (pr_hgname p) (pr_pname p) (pr_uname p) (pr_pparam p) 0 0 (pr_info p) 0 (pr_tsync_mod p) 0 (pr_comp_info p) (pr_version p))
    (if is_srv_cmd c then sv else Service 0 (sv_pname sv) (sv_uname sv) (sv_sname sv) (sv_methods sv) 0 0 0)
    (if is_cli_cmd c then cl else Client 0 (cl_pname cl) (cl_uname cl) (cl_sname cl) (cl_methods cl) 0)
    (if is_top_cmd c then t
     else Topic 0 (tp_hgname t) (tp_pname t) (tp_uname t) (tp_tname t) (tp_direction t) (tp_dtype t) (tp_layers t) 0 0 0 0 0 0 0 (tp_attr t)).
(** Buffer2RegistrationStruct 467-497. *)
Definition de_sample : list Z -> res sample := deserialize d_sample t_sample sample_of.
(** RegistrationListStruct2Buffer 551-577, encode_sample_list_field 502-530. *)
Definition pb_samples (l : list sample) : list fval := [VMsgs [] (map pb_sample l)].
Definition ser_samples (l : list sample) : list Z := enc_msg d_samples (pb_samples l).
(** Buffer2RegistrationListStruct 605-632, decode_sample_list_field 578-603. *)
Definition de_samples : list Z -> res (list sample) :=
  deserialize d_samples [VMsgs t_sample []] (fun m => map sample_of (fms 0 m)).

(** ** Log messages, ecal_serialize_logging.cpp *)
(** SLogMessage and SLogging, ecal/types/logging.h. *)
Record logmsg := LogMsg { lg_time : Z; lg_hname : text; lg_pid : Z; lg_pname : text; lg_uname : text; lg_level : Z; lg_content : text }.
Definition pb_log (l : logmsg) : list fval :=
  [VInt (lg_time l); cb (lg_hname l); VInt (lg_pid l); cb (lg_pname l); cb (lg_uname l); VInt (lg_level l); cb (lg_content l)].
Definition t_log : list fval := [VInt 0; ds; VInt 0; ds; ds; VInt 0; ds].
Definition log_of (m : list fval) : logmsg := LogMsg (fi 0 m) (fs 1 m) (fi 2 m) (fs 3 m) (fs 4 m) (fi 5 m) (fs 6 m).
(** LogMessageStruct2Buffer 78-104, Buffer2LogMessageStruct 139-170. *)
Definition ser_log (l : logmsg) : list Z := enc_msg d_log (pb_log l).
Definition de_log : list Z -> res logmsg := deserialize d_log t_log log_of.
(** LogMessageListStruct2Buffer 222-247, Buffer2LogMessageListStruct 275-301. *)
Definition pb_logs (l : list logmsg) : list fval := [VMsgs [] (map pb_log l)].
Definition ser_logs (l : list logmsg) : list Z := enc_msg d_logs (pb_logs l).
Definition de_logs : list Z -> res (list logmsg) := deserialize d_logs [VMsgs t_log []] (fun m => map log_of (fms 0 m)).

(** ** Monitoring, ecal_serialize_monitoring.cpp *)
(** SProcessMon, STopicMon, SServerMon, SClientMon, SMonitoring, ecal/types/monitoring.h: the
    registration structs with host name, process id and entity id.  A Monitoring::TLayer has
    no [ly_enabled], [ly_port] and [ly_memfiles]; they are false, 0 and empty here. *)
Record monitoring := Mon {
  mn_processes : list (text * Z * process);
  mn_publisher : list (text * Z * text * topic);
  mn_subscriber : list (text * Z * text * topic);
  mn_server : list (text * Z * text * service);
  mn_clients : list (text * Z * text * client) }.
(** encode_mon_registration_layer_field 111-138, decode_mon_registration_layer_field 558-581. *)
Definition pb_mlayer (l : tlayer) : list fval :=
  [VInt (lt_code (ly_type l)); VInt (ly_version l); VInt (bit (ly_active l)); VMsg false []; VInt 0].
Definition t_mlayer : list fval :=
  [VInt 0; VInt 0; VInt 0; VMsg false [VMsg false []; VMsg false [VNull]; VMsg false [VInt 0]]; VInt 0].
Definition mlayer_of (m : list fval) : tlayer := TLayer (lt_of (fi 0 m)) (fi 1 m) false (nz (fi 2 m)) 0 [].
Definition pb_mtopic (x : text * Z * text * topic) : list fval :=
  let '(h, p, e, t) := x in pb_topic pb_mlayer h p e t.
Definition mtopic_of (m : list fval) : text * Z * text * topic := (fs 1 m, fi 2 m, fs 5 m, topic_of mlayer_of m).
Definition pb_mon (x : monitoring) : list fval :=
  [VNull;
   VMsgs [] (map (fun y => let '(h, p, pr) := y in pb_process h p pr) (mn_processes x));
   VMsgs [] (map (fun y => let '(h, p, e, s) := y in pb_service h p e s) (mn_server x));
   VMsgs [] (map pb_mtopic (mn_publisher x) ++ map pb_mtopic (mn_subscriber x));
   VMsgs [] (map (fun y => let '(h, p, e, c) := y in pb_client h p e c) (mn_clients x))].
Definition t_mon : list fval :=
  [VNull; VMsgs t_process []; VMsgs t_service []; VMsgs (t_topic t_mlayer) []; VMsgs t_client []].
(** decode_topics_field 649-681: by the direction. *)
Definition with_dir (d : text) (l : list (text * Z * text * topic)) : list (text * Z * text * topic) :=
  filter (fun x => eqb (tp_direction (snd x)) d) l.
Definition mon_of (m : list fval) : monitoring :=
  let tops := map mtopic_of (fms 3 m) in
  Mon (map (fun y => (fs 1 y, fi 2 y, process_of y)) (fms 1 m))
    (with_dir (str "publisher") tops) (with_dir (str "subscriber") tops)
    (map (fun y => (fs 1 y, fi 4 y, fs 8 y, service_of y)) (fms 2 m))
    (map (fun y => (fs 1 y, fi 4 y, fs 6 y, client_of y)) (fms 4 m)).
(** MonitoringStruct2Buffer 451-477, Buffer2MonitoringStruct 857-901. *)
Definition ser_mon (x : monitoring) : list Z := enc_msg d_mon (pb_mon x).
Definition de_mon : list Z -> res monitoring := deserialize d_mon t_mon mon_of.
