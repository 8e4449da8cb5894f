(** Properties of the serialization (C39 - C41, C57, C58). *)
From Verif Require Import Base Sample PbModel PbSpec PbProofs PbRound PbExt SerModel SerSpec SerProofs SerWire SerLongProofs.
From Coq Require Import Lia ZArith Sorting.Sorted.

(** ** C39 payload samples *)
(** Reading what was written gives an equal sample. *)
Theorem c39_payload_round_trip_partial : forall p, wf_psample p -> (len (ser_payload p) < 2 ^ 32)%Z -> de_payload (ser_payload p) = Ok p.
Proof. exact payload_rt. Qed.
Print Assumptions c39_payload_round_trip_partial.

(** The bytes are the protocol buffer encoding with the field numbers of ecal.proto. *)
Theorem c39_payload_wire_format : forall p, wf_psample p -> (len (ser_payload p) < 2 ^ 64)%Z ->
  exists tb cb, wire (w_ptopic p) tb /\ wire (w_pcontent p) cb /\
    wire (wnum 1 (w_cmd (ps_cmd p)) ++ [WBytes 5 tb; WBytes 6 cb; WBytes 8 (ps_padding p)]) (ser_payload p).
Proof. exact payload_wire. Qed.
Print Assumptions c39_payload_wire_format.

(** Different samples have different bytes. *)
Theorem c39_payload_injective : forall p q, wf_psample p -> wf_psample q -> (len (ser_payload p) < 2 ^ 32)%Z ->
  ser_payload p = ser_payload q -> p = q.
Proof. exact ser_payload_inj. Qed.
Print Assumptions c39_payload_injective.

(** Any bytes either fail or give a sample; nothing outside the buffer is read and decoding ends. *)
Theorem c39_any_bytes : forall t bs, de_payload_into t bs <> Fault.
Proof. exact (fun t => deserialize_safe d_sample (t_psample t) psample_of). Qed.
Print Assumptions c39_any_bytes.

(** From 4 GiB on (here up to 16 GiB) a payload is written but cannot be read. *)
Theorem c39_payload_of_4gib_refuted : forall p, wf_psample p -> (2 ^ 32 <= len (ps_payload p))%Z -> (len (ser_payload p) < 2 ^ 34)%Z ->
  (len (ser_payload p) - len (ps_payload p) < 2 ^ 31)%Z -> de_payload (ser_payload p) = Fail.
Proof. exact payload_too_long. Qed.
Print Assumptions c39_payload_of_4gib_refuted.
Example c39_4gib_case : wf_psample long_payload /\ (2 ^ 32 <= len (ps_payload long_payload))%Z /\ (len (ser_payload long_payload) < 2 ^ 34)%Z /\
  (len (ser_payload long_payload) - len (ps_payload long_payload) < 2 ^ 31)%Z.
Proof. exact long_payload_ok. Qed.

(** Read into a struct that has been used before, an empty payload leaves the old one. *)
Theorem c39_used_struct_keeps_payload_refuted : forall t p, wf_psample p -> (len (ser_payload p) < 2 ^ 32)%Z ->
  ps_payload p = [] -> ps_payload t <> [] ->
  exists q, de_payload_into t (ser_payload p) = Ok q /\ ps_payload q = ps_payload t /\ q <> p.
Proof. exact payload_stale. Qed.
Print Assumptions c39_used_struct_keeps_payload_refuted.
(** The rest is as transmitted. *)
Theorem c39_used_struct : forall t p, wf_psample p -> (len (ser_payload p) < 2 ^ 32)%Z ->
  de_payload_into t (ser_payload p) =
  Ok (PSample (ps_cmd p) (keep (ps_hname t) (ps_hname p)) (keep (ps_tid t) (ps_tid p)) (keep (ps_tname t) (ps_tname p))
        (ps_id p) (ps_clock p) (ps_time p) (ps_hash p) (ps_size p) (keep (ps_payload t) (ps_payload p)) (ps_padding p)).
Proof. exact payload_into. Qed.
Print Assumptions c39_used_struct.

Example c39_example :
  let p := PSample bct_set_sample (str "host") (str "42") (str "topic") 7 300 (-5) (2 ^ 63 - 1) 3 [1; 2; 255]%Z [0; 0]%Z in
  wf_psample p /\ (len (ser_payload p) < 2 ^ 32)%Z /\ de_payload (ser_payload p) = Ok p /\ de_payload (firstn 40 (ser_payload p)) = Fail.
Proof.
  split; [|split; [vm_compute; reflexivity|split; vm_compute; reflexivity]].
  unfold wf_psample, wf_cmd, i64, i32. cbn. split; [discriminate|]. lia.
Qed.

(** ** C40 service requests and responses *)
Theorem c40_request_round_trip_partial : forall r, wf_request r -> (len (ser_request r) < 2 ^ 32)%Z -> de_request (ser_request r) = Ok r.
Proof. exact request_rt. Qed.
Print Assumptions c40_request_round_trip_partial.
Theorem c40_response_round_trip_partial : forall r, wf_response r -> (len (ser_response r) < 2 ^ 32)%Z -> de_response (ser_response r) = Ok r.
Proof. exact response_rt. Qed.
Print Assumptions c40_response_round_trip_partial.
Theorem c40_request_wire_format : forall r, wf_request r -> (len (ser_request r) < 2 ^ 64)%Z ->
  exists hb, wire (w_header (rq_header r)) hb /\ wire (WBytes 1 hb :: wstr 2 (rq_request r)) (ser_request r).
Proof. exact request_wire. Qed.
Print Assumptions c40_request_wire_format.
Theorem c40_response_wire_format : forall r, wf_response r -> (len (ser_response r) < 2 ^ 64)%Z ->
  exists hb, wire (w_header (rp_header r)) hb /\ wire (WBytes 1 hb :: wstr 2 (rp_response r) ++ wnum 3 (rp_ret r)) (ser_response r).
Proof. exact response_wire. Qed.
Print Assumptions c40_response_wire_format.
Theorem c40_any_bytes : forall bs, de_request bs <> Fault /\ de_response bs <> Fault.
Proof. exact (fun bs => conj (deserialize_safe d_request _ _ bs) (deserialize_safe d_response _ _ bs)). Qed.
Print Assumptions c40_any_bytes.
(** From 4 GiB on (here up to 16 GiB) requests and responses are written but cannot be read. *)
Theorem c40_request_of_4gib_refuted : forall r, wf_request r -> (2 ^ 32 <= len (rq_request r))%Z -> (len (ser_request r) < 2 ^ 34)%Z ->
  (len (ser_request r) - len (rq_request r) < 2 ^ 31)%Z -> de_request (ser_request r) = Fail.
Proof. exact request_too_long. Qed.
Print Assumptions c40_request_of_4gib_refuted.
(** The same for responses. *)
Theorem c40_response_of_4gib_refuted : forall r, wf_response r -> (2 ^ 32 <= len (rp_response r))%Z -> (len (ser_response r) < 2 ^ 34)%Z ->
  (len (ser_response r) - len (rp_response r) < 2 ^ 31)%Z -> de_response (ser_response r) = Fail.
Proof. exact response_too_long. Qed.
Print Assumptions c40_response_of_4gib_refuted.
Example c40_4gib_case :
  (wf_request long_request /\ (2 ^ 32 <= len (rq_request long_request))%Z /\ (len (ser_request long_request) < 2 ^ 34)%Z /\
   (len (ser_request long_request) - len (rq_request long_request) < 2 ^ 31)%Z) /\
  (wf_response long_response /\ (2 ^ 32 <= len (rp_response long_response))%Z /\ (len (ser_response long_response) < 2 ^ 34)%Z /\
   (len (ser_response long_response) - len (rp_response long_response) < 2 ^ 31)%Z).
Proof. exact (conj long_request_ok long_response_ok). Qed.
Example c40_example :
  let h := Header (str "h") (str "svc") (str "17") (str "echo") [] (-3) 2 in
  let q := Request h [0; 200]%Z in let r := Response h (str "answer") (-1) in
  wf_request q /\ wf_response r /\ de_request (ser_request q) = Ok q /\ de_response (ser_response r) = Ok r /\
  de_request (ser_response r) <> Fault.
Proof.
  repeat split; try (vm_compute; reflexivity); try (cbn; lia). vm_compute. discriminate.
Qed.

(** ** C41 registration samples *)
(** What is transmitted of a sample ([arrives]) arrives. *)
Theorem c41_registration_round_trip_partial : forall s, wf_sample s -> (len (ser_sample s) < 2 ^ 32)%Z ->
  de_sample (ser_sample s) = Ok (arrives s).
Proof. exact sample_round. Qed.
Print Assumptions c41_registration_round_trip_partial.
(** A non-empty list arrives in order. *)
Theorem c41_list_round_trip_partial : forall l, l <> [] -> Forall wf_sample l -> (len (ser_samples l) < 2 ^ 32)%Z ->
  de_samples (ser_samples l) = Ok (map arrives l).
Proof. exact samples_round. Qed.
Print Assumptions c41_list_round_trip_partial.
Theorem c41_registration_wire_format : forall s, wf_sample s -> (len (ser_sample s) < 2 ^ 64)%Z ->
  exists hb, wire (wstr 1 (sm_hname s)) hb /\
    (wire (wnum 1 (w_cmd (sm_cmd s)) ++ [WBytes 2 hb]) (ser_sample s) \/
     exists k b, sample_part s k b /\ wire (wnum 1 (w_cmd (sm_cmd s)) ++ [WBytes 2 hb; WBytes k b]) (ser_sample s)).
Proof. exact sample_wire. Qed.
Print Assumptions c41_registration_wire_format.
Theorem c41_any_bytes : forall bs, de_sample bs <> Fault /\ de_samples bs <> Fault.
Proof. exact (fun bs => conj (deserialize_safe d_sample _ _ bs) (deserialize_safe d_samples _ _ bs)). Qed.
Print Assumptions c41_any_bytes.
(** The name of the operating system never arrives, nor the entity id of a process. *)
Theorem c41_os_name_lost_refuted : forall s, wf_sample s -> (len (ser_sample s) < 2 ^ 32)%Z -> sm_osname s <> [] ->
  de_sample (ser_sample s) <> Ok s.
Proof. exact osname_lost. Qed.
Print Assumptions c41_os_name_lost_refuted.
Theorem c41_process_id_lost_refuted : forall s, wf_sample s -> (len (ser_sample s) < 2 ^ 32)%Z ->
  is_prc_cmd (sm_cmd s) = true -> sm_entity s <> [] -> de_sample (ser_sample s) <> Ok s.
Proof. exact process_entity_lost. Qed.
Print Assumptions c41_process_id_lost_refuted.
(** Forwarding a received sample loses nothing more. *)
Theorem c41_forwarding_loses_nothing : forall s, arrives (arrives s) = arrives s.
Proof. exact arrives_idem. Qed.
Print Assumptions c41_forwarding_loses_nothing.
(** An empty list is written as an empty buffer, and that is not accepted. *)
Theorem c41_empty_list_refuted : ser_samples [] = [] /\ de_samples (ser_samples []) = Fail.
Proof. exact (conj eq_refl samples_empty). Qed.
Print Assumptions c41_empty_list_refuted.
Example c41_example :
  let t := Topic 3 (str "g") (str "proc") (str "unit") (str "topic") (str "publisher") (DataType (str "T") (str "proto") [1; 2]%Z)
             [TLayer tl_shm 1 true false 0 [str "f1"; str "f2"]; TLayer tl_tcp 2 false true 4711 []] 10 1 2 3 4 5 (-6)
             [(str "a", str "1"); (str "bc", []); (str "c", str "2")] in
  let s := Sample (str "17") 4242 (str "host") bct_reg_publisher (str "host") [] process0 service0 client0 t in
  wf_sample s /\ de_sample (ser_sample s) = Ok s /\ de_samples (ser_samples [s; s]) = Ok [s; s].
Proof.
  split; [|split; vm_compute; reflexivity].
  split; [intros z; discriminate|]. split; [split; vm_compute; intuition discriminate|].
  split; [repeat split; cbn; try lia; vm_compute; intuition discriminate|].
  split; [repeat split; cbn; try lia; try constructor; vm_compute; intuition discriminate|].
  split; [repeat split; cbn; try lia; try constructor; vm_compute; intuition discriminate|].
  unfold wf_topic, wf_layer, i32, i64, is_map. cbn. repeat split; try lia.
  - repeat constructor; cbn; lia.
  - repeat constructor; cbn; try lia.
Qed.

(** ** C57 log messages and monitoring *)
Theorem c57_log_round_trip_partial : forall l, l <> LogMsg 0 [] 0 [] [] 0 [] -> wf_log l -> (len (ser_log l) < 2 ^ 32)%Z ->
  de_log (ser_log l) = Ok l.
Proof. exact log_round'. Qed.
Print Assumptions c57_log_round_trip_partial.
Theorem c57_log_list_round_trip_partial : forall l, l <> [] -> Forall wf_log l -> (len (ser_logs l) < 2 ^ 32)%Z -> de_logs (ser_logs l) = Ok l.
Proof. exact logs_round. Qed.
Print Assumptions c57_log_list_round_trip_partial.
Theorem c57_monitoring_round_trip_partial : forall m, m <> Mon [] [] [] [] [] -> wf_mon m -> (len (ser_mon m) < 2 ^ 32)%Z ->
  de_mon (ser_mon m) = Ok m.
Proof. exact mon_round'. Qed.
Print Assumptions c57_monitoring_round_trip_partial.
Theorem c57_log_wire_format : forall l, wf_log l -> (len (ser_log l) < 2 ^ 64)%Z -> wire (w_log l) (ser_log l).
Proof. exact log_wire. Qed.
Print Assumptions c57_log_wire_format.
Theorem c57_any_bytes : forall bs, de_log bs <> Fault /\ de_logs bs <> Fault /\ de_mon bs <> Fault.
Proof.
  exact (fun bs => conj (deserialize_safe d_log _ _ bs) (conj (deserialize_safe d_logs _ _ bs) (deserialize_safe d_mon _ _ bs))).
Qed.
Print Assumptions c57_any_bytes.
(** The empty ones are written as an empty buffer, and that is not accepted. *)
Theorem c57_empty_refuted :
  de_log (ser_log (LogMsg 0 [] 0 [] [] 0 [])) = Fail /\ de_logs (ser_logs []) = Fail /\ de_mon (ser_mon (Mon [] [] [] [] [])) = Fail.
Proof. exact (conj eq_refl (conj eq_refl eq_refl)). Qed.
Print Assumptions c57_empty_refuted.
Example c57_example :
  let l := LogMsg 123456789 (str "host") 42 (str "proc") [] 4 (str "text") in
  let t := Topic 3 [] (str "proc") [] (str "topic") (str "subscriber") dt0 [TLayer tl_udp 1 false true 0 []] 10 1 2 3 4 5 6 [] in
  let m := Mon [(str "h", 1%Z, process0)] [] [(str "h", 1%Z, str "e", t)] [(str "h", 2%Z, str "s", service0)] [] in
  wf_log l /\ de_log (ser_log l) = Ok l /\ de_logs (ser_logs [l; LogMsg 0 [] 0 [] [] 0 []]) = Ok [l; LogMsg 0 [] 0 [] [] 0 []] /\
  wf_mon m /\ de_mon (ser_mon m) = Ok m.
Proof.
  split; [repeat split; cbn; lia|]. split; [vm_compute; reflexivity|]. split; [vm_compute; reflexivity|]. split; [|vm_compute; reflexivity].
  unfold wf_mon, wf_mtopic, wf_topic, wf_layer, wf_process, wf_service, mon_layer, i32, i64, u32, is_map.
  cbn [mn_processes mn_publisher mn_subscriber mn_server mn_clients].
  split; [repeat constructor; cbn; lia|]. split; [constructor|]. split; [|split; [repeat constructor; cbn; lia|constructor]].
  constructor; [|constructor]. split; [lia|]. split; [|split; [repeat constructor|reflexivity]].
  cbn. split; [lia|]. split; [repeat constructor; cbn; lia|]. repeat split; try lia. constructor.
Qed.

(** ** C58 fields of later versions *)
(** [ext_msg]: the fields of the message in the protocol buffer format, with fields of unknown
    numbers in between, at any level.  They are skipped. *)
Theorem c58_payload_unknown_fields : forall p bs, wf_psample p -> ext_msg d_sample d_sample (pb_psample p) bs -> (len bs < 2 ^ 32)%Z ->
  de_payload bs = Ok p.
Proof. exact payload_ext. Qed.
Print Assumptions c58_payload_unknown_fields.
Theorem c58_registration_unknown_fields : forall s bs, wf_sample s -> ext_msg d_sample d_sample (pb_sample s) bs -> (len bs < 2 ^ 32)%Z ->
  de_sample bs = Ok (arrives s).
Proof. exact sample_ext. Qed.
Print Assumptions c58_registration_unknown_fields.
Theorem c58_registration_list_unknown_fields : forall l bs, l <> [] -> Forall wf_sample l -> ext_msg d_samples d_samples (pb_samples l) bs ->
  (len bs < 2 ^ 32)%Z -> de_samples bs = Ok (map arrives l).
Proof. exact samples_ext. Qed.
Print Assumptions c58_registration_list_unknown_fields.
Theorem c58_request_unknown_fields : forall r bs, wf_request r -> ext_msg d_request d_request (pb_request r) bs -> (len bs < 2 ^ 32)%Z ->
  de_request bs = Ok r.
Proof. exact request_ext. Qed.
Print Assumptions c58_request_unknown_fields.
Theorem c58_response_unknown_fields : forall r bs, wf_response r -> ext_msg d_response d_response (pb_response r) bs -> (len bs < 2 ^ 32)%Z ->
  de_response bs = Ok r.
Proof. exact response_ext. Qed.
Print Assumptions c58_response_unknown_fields.
Theorem c58_log_unknown_fields : forall l bs, l <> [] -> Forall wf_log l -> ext_msg d_logs d_logs (pb_logs l) bs -> (len bs < 2 ^ 32)%Z ->
  de_logs bs = Ok l.
Proof. exact logs_ext. Qed.
Print Assumptions c58_log_unknown_fields.
Theorem c58_monitoring_unknown_fields : forall m bs, bs <> [] -> wf_mon m -> ext_msg d_mon d_mon (pb_mon m) bs -> (len bs < 2 ^ 32)%Z ->
  de_mon bs = Ok m.
Proof. exact mon_ext. Qed.
Print Assumptions c58_monitoring_unknown_fields.
(** What is written today is such a message. *)
Theorem c58_written_messages : forall s, wf_sample s -> (len (ser_sample s) < 2 ^ 64)%Z -> ext_msg d_sample d_sample (pb_sample s) (ser_sample s).
Proof. exact (fun s W => pb_encode_ext d_sample _ (pb_sample s) (sample_compat s W) eq_refl). Qed.
Print Assumptions c58_written_messages.
(** A request with an unknown number in front, one in its header and unknown bytes at the end. *)
Example c58_example :
  let r := Request (Header [] (str "s") [] (str "m") [] 0 0) (str "q") in
  let bs := [ 80; 5;  10; 8; 18; 1; 115; 104; 7; 26; 1; 109;  18; 1; 113;  178; 1; 2; 9; 9 ]%Z in
  wf_request r /\ ext_msg d_request d_request (pb_request r) bs /\ de_request bs = Ok r.
Proof.
  split; [repeat split; cbn; lia|]. split; [|vm_compute; reflexivity].
  apply (xm_unknown _ _ _ [80; 5]%Z).
  { apply (un_num _ 10 5 [80]%Z [5]%Z); [cbn; lia|lia|constructor; lia|constructor; lia]. }
  apply (xm_field _ _ _ _ _ _ [10; 8; 18; 1; 115; 104; 7; 26; 1; 109]%Z).
  { eapply (xf_msg _ _ _ [18; 1; 115; 104; 7; 26; 1; 109]%Z).
    - apply (xm_field _ _ _ _ _ _ []); [apply xf_null|].
      apply (xm_field _ _ _ _ _ _ [18; 1; 115]%Z).
      { apply xf_str. apply (w_bytes 2 [115]%Z [] [18]%Z [1]%Z []); [constructor; lia|constructor; cbn; lia|constructor]. }
      apply (xm_unknown _ _ _ [104; 7]%Z).
      { apply (un_num _ 13 7 [104]%Z [7]%Z); [cbn; lia|lia|constructor; lia|constructor; lia]. }
      apply (xm_field _ _ _ _ _ _ [26; 1; 109]%Z).
      { apply xf_str. apply (w_bytes 3 [109]%Z [] [26]%Z [1]%Z []); [constructor; lia|constructor; cbn; lia|constructor]. }
      apply (xm_field _ _ _ _ _ _ []); [apply xf_null|].
      apply (xm_field _ _ _ _ _ _ []); [apply xf_num; [cbn; tauto|constructor]|].
      apply (xm_field _ _ _ _ _ _ []); [apply xf_num; [cbn; tauto|constructor]|].
      apply (xm_field _ _ _ _ _ _ []); [apply xf_null|]. constructor.
    - apply (w_bytes 1 [18; 1; 115; 104; 7; 26; 1; 109]%Z [] [10]%Z [8]%Z []); [constructor; lia|constructor; cbn; lia|constructor]. }
  apply (xm_field _ _ _ _ _ _ [18; 1; 113]%Z).
  { apply xf_str. apply (w_bytes 2 [113]%Z [] [18]%Z [1]%Z []); [constructor; lia|constructor; cbn; lia|constructor]. }
  apply (xm_unknown _ _ _ [178; 1; 2; 9; 9]%Z []); [|constructor].
  apply (un_bytes _ 22 [9; 9]%Z [178; 1]%Z [2]%Z); [cbn; lia|lia| |constructor; cbn; lia].
  exact (vi_more 50 1 [1]%Z ltac:(lia) ltac:(lia) (vi_last 1 ltac:(lia))).
Qed.
