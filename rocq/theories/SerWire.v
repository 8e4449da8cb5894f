(** The bytes written for each message, field by field. *)
From Verif Require Import Base Sample PbModel PbSpec PbProofs PbRound PbExt SerModel SerSpec SerProofs.
From Coq Require Import Lia ZArith.

Definition wf1 (tag : Z) (ty : ftype) (v : fval) : list wfield :=
  match ty, v with
  | (FI32 | FI64 | FU32 | FBool), VInt z => wnum tag z
  | FMsg d, VMsg true m => [WBytes tag (enc_msg d m)]
  | FCallStr, VStr s => [WBytes tag s]
  | FCallStr, VStrs l => map (WBytes tag) l
  | FCallMsg d, VMsgs _ l => map (fun m => WBytes tag (enc_msg d m)) l
  | _, _ => []
  end.
Fixpoint wfs (d : desc) (v : list fval) : list wfield :=
  match d, v with
  | (k, f) :: d', x :: v' => wf1 k f x ++ wfs d' v'
  | _, _ => []
  end.
Lemma wire_msgs tag d l : (0 < tag < 2 ^ 29)%Z -> (len (flat_map (fun m => enc_tag wt_string tag ++ enc_string (enc_msg d m)) l) < 2 ^ 64)%Z ->
  wire (map (fun m => WBytes tag (enc_msg d m)) l) (flat_map (fun m => enc_tag wt_string tag ++ enc_string (enc_msg d m)) l).
Proof.
  intros Ht S. pose proof (enc_strs_wire tag (map (enc_msg d) l) Ht) as X. rewrite map_map in X.
  rewrite !flat_map_concat_map in *. rewrite map_map in X. now apply X.
Qed.
Lemma wf1_ok tag ty t v : compat ty t v -> (0 < tag < 2 ^ 29)%Z -> (len (enc_field tag ty v) < 2 ^ 64)%Z ->
  wire (wf1 tag ty v) (enc_field tag ty v).
Proof.
  intros C Ht S. destruct ty.
  - destruct t, v; cbn in C; try tauto. now apply enc_num_wire.
  - destruct t, v; cbn in C; try tauto. now apply enc_num_wire.
  - destruct t, v; cbn in C; try tauto. pose proof (enc_num_wire tag z0 Ht) as X. unfold u64 in X. unfold u32 in C.
    rewrite Z.mod_small in X by lia. exact X.
  - destruct t, v; cbn in C; try tauto. pose proof (enc_num_wire tag z0 Ht) as X. destruct C as [_ [->| ->]]; exact X.
  - destruct t as [|h a| | | |], v as [|h' b| | | |]; try (cbn in C; tauto). destruct h'; [|constructor].
    rewrite enc_field_msg in *. rewrite len_app in S. pose proof (enc_string_len (enc_msg d b)). pose proof (len_nonneg (enc_tag wt_string tag)).
    apply wire_one; [exact Ht|lia].
  - destruct t, v; cbn in C; try tauto; try constructor; cbn [enc_field wf1] in *.
    + rewrite len_app in S. pose proof (enc_string_len s). pose proof (len_nonneg (enc_tag wt_string tag)). apply wire_one; [exact Ht|lia].
    + now apply enc_strs_wire.
    + rewrite len_app in S. pose proof (enc_string_len s0). pose proof (len_nonneg (enc_tag wt_string tag)). apply wire_one; [exact Ht|lia].
    + now apply enc_strs_wire.
  - destruct t as [| | | | |e a], v as [| | | | |e' b]; try (cbn in C; tauto); try constructor.
    rewrite enc_field_msgs in *. now apply wire_msgs.
Qed.
Lemma wfs_ok d : forall t v, compat_l d t v -> wf_d d = true -> (len (enc_msg d v) < 2 ^ 64)%Z -> wire (wfs d v) (enc_msg d v).
Proof.
  induction d as [|[k f] d IH]; intros t v C W S.
  - destruct t, v; cbn in C; try tauto. constructor.
  - destruct t as [|x t], v as [|y v]; cbn [compat_l] in C; try tauto. destruct C as [C1 C2].
    cbn [enc_msg wfs] in *. rewrite len_app in S. pose proof (len_nonneg (enc_field k f y)). pose proof (len_nonneg (enc_msg d v)).
    destruct (wf_d_in _ W) as [N A]. inversion A as [|? ? [A1 A2] A3]; subst. cbn [fst snd] in *.
    apply wire_cat; [eapply wf1_ok; [exact C1|exact A1|lia]|]. apply (IH t); [exact C2| |lia].
    cbn [wf_d] in W. now apply andb_true_iff in W as [_ W].
Qed.
Lemma wf1_cb tag s : wf1 tag FCallStr (cb s) = wstr tag s.
Proof. destruct s; reflexivity. Qed.
Lemma wf1_null tag ty : wf1 tag ty VNull = [].
Proof. destruct ty; reflexivity. Qed.
Lemma wf1_nomsg tag d m : wf1 tag (FMsg d) (VMsg false m) = [].
Proof. reflexivity. Qed.
Lemma wf1_msg tag d m : wf1 tag (FMsg d) (VMsg true m) = [WBytes tag (enc_msg d m)].
Proof. reflexivity. Qed.
Lemma wf1_i32 tag z : wf1 tag FI32 (VInt z) = wnum tag z. Proof. reflexivity. Qed.
Lemma wf1_i64 tag z : wf1 tag FI64 (VInt z) = wnum tag z. Proof. reflexivity. Qed.
Lemma wf1_u32 tag z : wf1 tag FU32 (VInt z) = wnum tag z. Proof. reflexivity. Qed.
Lemma wf1_bool tag z : wf1 tag FBool (VInt z) = wnum tag z. Proof. reflexivity. Qed.
Lemma wf1_str tag s : wf1 tag FCallStr (VStr s) = [WBytes tag s]. Proof. reflexivity. Qed.
Lemma wf1_strs tag l : wf1 tag FCallStr (VStrs l) = map (WBytes tag) l. Proof. reflexivity. Qed.
Lemma wf1_msgs {A} tag d e (f : A -> list fval) l : wf1 tag (FCallMsg d) (VMsgs e (map f l)) = map (WBytes tag) (map (fun x => enc_msg d (f x)) l).
Proof. unfold wf1. now rewrite !map_map. Qed.
Lemma wfs_cons k f d x v : wfs ((k, f) :: d) (x :: v) = wf1 k f x ++ wfs d v.
Proof. reflexivity. Qed.
Lemma wfs_nil : wfs [] [] = []. Proof. reflexivity. Qed.
Ltac wf_go := repeat rewrite ?wfs_cons, ?wfs_nil, ?wf1_cb, ?wf1_null, ?wf1_nomsg, ?wf1_msg, ?wf1_i32, ?wf1_i64, ?wf1_u32, ?wf1_bool,
  ?wf1_str, ?wf1_strs, ?wf1_msgs, ?app_nil_r; cbn [app]; try reflexivity.

(** A part is shorter than the whole. *)
Lemma wire_len fs bs tag b : wire fs bs -> In (WBytes tag b) fs -> (len b <= len bs)%Z.
Proof.
  induction 1 as [|tg z fs tb vb bs V1 V2 W IH|tg c fs tb lb bs V1 V2 W IH]; intros I; [destruct I| |].
  - destruct I as [I|I]; [discriminate|]. specialize (IH I). rewrite !len_app. pose proof (len_nonneg tb). pose proof (len_nonneg vb). lia.
  - rewrite !len_app. pose proof (len_nonneg tb). pose proof (len_nonneg lb). pose proof (len_nonneg c). pose proof (len_nonneg bs).
    destruct I as [I|I]; [injection I as -> ->; lia|]. specialize (IH I). lia.
Qed.
Lemma part_len d t v k dk m : compat_l d t v -> wf_d d = true -> (len (enc_msg d v) < 2 ^ 64)%Z ->
  In (WBytes k (enc_msg dk m)) (wfs d v) -> (len (enc_msg dk m) < 2 ^ 64)%Z.
Proof. intros C W S I. pose proof (wire_len _ _ _ _ (wfs_ok d t v C W S) I). lia. Qed.

(** ** Services *)
Lemma w_header_ok h : wf_header h -> (len (enc_msg d_header (pb_header h)) < 2 ^ 64)%Z -> wire (w_header h) (enc_msg d_header (pb_header h)).
Proof.
  intros W S. assert (w_header h = wfs d_header (pb_header h)) as ->.
  { unfold w_header, d_header, pb_header. wf_go. }
  exact (wfs_ok _ _ _ (header_compat h W) eq_refl S).
Qed.
Lemma request_wire r : wf_request r -> (len (ser_request r) < 2 ^ 64)%Z ->
  exists hb, wire (w_header (rq_header r)) hb /\ wire (WBytes 1 hb :: wstr 2 (rq_request r)) (ser_request r).
Proof.
  intros W S. assert (E : wfs d_request (pb_request r) = WBytes 1 (enc_msg d_header (pb_header (rq_header r))) :: wstr 2 (rq_request r)).
  { unfold d_request, pb_request. wf_go. }
  pose proof (request_compat r W) as C. unfold ser_request in *. fold (pb_request r) in *.
  exists (enc_msg d_header (pb_header (rq_header r))). split.
  - apply w_header_ok; [exact W|]. eapply (part_len _ _ _ 1 _ _ C eq_refl S). rewrite E. now left.
  - rewrite <- E. exact (wfs_ok _ _ _ C eq_refl S).
Qed.
Lemma response_wire r : wf_response r -> (len (ser_response r) < 2 ^ 64)%Z ->
  exists hb, wire (w_header (rp_header r)) hb /\ wire (WBytes 1 hb :: wstr 2 (rp_response r) ++ wnum 3 (rp_ret r)) (ser_response r).
Proof.
  intros W S.
  assert (E : wfs d_response (pb_response r) = WBytes 1 (enc_msg d_header (pb_header (rp_header r))) :: wstr 2 (rp_response r) ++ wnum 3 (rp_ret r)).
  { unfold d_response, pb_response. wf_go. }
  pose proof (response_compat r W) as C. unfold ser_response in *. fold (pb_response r) in *.
  exists (enc_msg d_header (pb_header (rp_header r))). split.
  - apply w_header_ok; [apply W|]. eapply (part_len _ _ _ 1 _ _ C eq_refl S). rewrite E. now left.
  - rewrite <- E. exact (wfs_ok _ _ _ C eq_refl S).
Qed.

(** ** Payload *)
Lemma w_cmd_code c : w_cmd c = cmd_code c.
Proof. destruct c; reflexivity. Qed.
Lemma payload_wire p : wf_psample p -> (len (ser_payload p) < 2 ^ 64)%Z ->
  exists tb cb, wire (w_ptopic p) tb /\ wire (w_pcontent p) cb /\
    wire (wnum 1 (w_cmd (ps_cmd p)) ++ [WBytes 5 tb; WBytes 6 cb; WBytes 8 (ps_padding p)]) (ser_payload p).
Proof.
  intros W S. pose proof (psample_compat psample0 p W) as C. unfold ser_payload in *.
  set (tv := pl_topic (cb (ps_hname p)) (cb (ps_tid p)) (cb (ps_tname p))).
  set (cv := [VInt (ps_id p); VInt (ps_clock p); VInt (ps_time p); cb (ps_payload p); VInt (ps_size p); VInt (ps_hash p)]).
  assert (E : wfs d_sample (pb_psample p) = wnum 1 (w_cmd (ps_cmd p)) ++
    [WBytes 5 (enc_msg d_topic tv); WBytes 6 (enc_msg d_content cv); WBytes 8 (ps_padding p)]).
  { rewrite w_cmd_code. unfold d_sample, pb_psample, no_msg. wf_go. }
  assert (S1 : (len (enc_msg d_topic tv) < 2 ^ 64)%Z).
  { eapply (part_len _ _ _ 5 _ _ C eq_refl S). rewrite E. apply in_or_app. right. now left. }
  assert (S2 : (len (enc_msg d_content cv) < 2 ^ 64)%Z).
  { eapply (part_len _ _ _ 6 _ _ C eq_refl S). rewrite E. apply in_or_app. right. right. now left. }
  exists (enc_msg d_topic tv), (enc_msg d_content cv). split; [|split].
  - assert (w_ptopic p = wfs d_topic tv) as ->. { unfold w_ptopic, d_topic, tv, pl_topic. wf_go. }
    exact (wfs_ok _ _ _ (pl_topic_compat [] [] [] _ _ _) eq_refl S1).
  - assert (w_pcontent p = wfs d_content cv) as ->. { unfold w_pcontent, d_content, cv. wf_go. }
    destruct W as (W1 & W2 & W3 & W4 & W5 & W6).
    apply (wfs_ok _ [VInt 0; VInt 0; VInt 0; VStr []; VInt 0; VInt 0]); [|reflexivity|exact S2]. unfold d_content, cv. compat_tac.
  - rewrite <- E. exact (wfs_ok _ _ _ C eq_refl S).
Qed.

(** ** Registration *)
Lemma host_wire s : (len (enc_msg d_host [cb (sm_hname s); VMsg false [VNull]]) < 2 ^ 64)%Z ->
  wire (wstr 1 (sm_hname s)) (enc_msg d_host [cb (sm_hname s); VMsg false [VNull]]).
Proof.
  intros S. assert (wstr 1 (sm_hname s) = wfs d_host [cb (sm_hname s); VMsg false [VNull]]) as ->. { unfold d_host. wf_go. }
  apply (wfs_ok _ [VStr []; VMsg false [VNull]]); [|reflexivity|exact S]. unfold d_host. compat_tac.
Qed.
Lemma process_wire h pid p : i32 pid -> wf_process p -> (len (enc_msg d_process (pb_process h pid p)) < 2 ^ 64)%Z ->
  exists st, wire (w_state p) st /\ wire (w_process h pid p st) (enc_msg d_process (pb_process h pid p)).
Proof.
  intros A W S. pose proof (process_compat h pid p A W) as C.
  set (sv := [VInt (pr_severity p); cb (pr_info p); VInt (pr_severity_level p)]).
  assert (E : wfs d_process (pb_process h pid p) = w_process h pid p (enc_msg d_state sv)).
  { unfold d_process, pb_process, w_process. wf_go. }
  exists (enc_msg d_state sv). split; [|rewrite <- E; exact (wfs_ok _ _ _ C eq_refl S)].
  assert (w_state p = wfs d_state sv) as ->. { unfold w_state, d_state, sv. wf_go. }
  destruct W as (W1 & W2 & W3 & W4 & W5).
  apply (wfs_ok _ [VInt 0; VStr []; VInt 0]); [|reflexivity|].
  - unfold d_state, sv. compat_tac.
  - eapply (part_len _ _ _ 12 _ _ C eq_refl S). rewrite E. unfold w_process. repeat (rewrite in_app_iff; (try (left; now left)); right).
Qed.
Lemma method_wire m : wf_method m -> (len (enc_msg d_method (pb_method m)) < 2 ^ 64)%Z -> wire (w_method m) (enc_msg d_method (pb_method m)).
Proof.
  intros W S. assert (w_method m = wfs d_method (pb_method m)) as ->. { unfold w_method, d_method, pb_method. wf_go. }
  exact (wfs_ok _ _ _ (method_compat m W) eq_refl S).
Qed.
Lemma forall2_map {A B} (R : A -> B -> Prop) (f : A -> B) l : Forall (fun x => R x (f x)) l -> Forall2 R l (map f l).
Proof. induction 1; constructor; assumption. Qed.
Lemma list_wire {A} (R : A -> list Z -> Prop) (wfx : A -> Prop) k d0 t0 v0 dm (f : A -> list fval) l :
  compat_l d0 t0 v0 -> wf_d d0 = true -> (len (enc_msg d0 v0) < 2 ^ 64)%Z ->
  (forall x, wfx x -> (len (enc_msg dm (f x)) < 2 ^ 64)%Z -> R x (enc_msg dm (f x))) -> Forall wfx l ->
  (forall x, In x l -> In (WBytes k (enc_msg dm (f x))) (wfs d0 v0)) ->
  Forall2 R l (map (fun x => enc_msg dm (f x)) l).
Proof.
  intros C W S H F I. apply forall2_map. apply Forall_forall. intros x X. rewrite Forall_forall in F.
  apply H; [now apply F|]. eapply (part_len d0 t0 v0 k); [exact C|exact W|exact S|now apply I].
Qed.
Lemma service_wire h pid e s : i32 pid -> wf_service s -> (len (enc_msg d_service (pb_service h pid e s)) < 2 ^ 64)%Z ->
  exists ms, Forall2 (fun m b => wire (w_method m) b) (sv_methods s) ms /\
    wire (w_service h pid e s ms) (enc_msg d_service (pb_service h pid e s)).
Proof.
  intros A W S. pose proof (service_compat h pid e s A W) as C.
  set (ms := map (fun x => enc_msg d_method (pb_method x)) (sv_methods s)).
  assert (E : wfs d_service (pb_service h pid e s) = w_service h pid e s ms).
  { unfold d_service, pb_service, w_service. wf_go. }
  exists ms. split; [|rewrite <- E; exact (wfs_ok _ _ _ C eq_refl S)].
  apply (list_wire _ wf_method 8 d_service _ (pb_service h pid e s) d_method pb_method _ C eq_refl S); [exact method_wire|apply W|].
  intros x X. rewrite E. unfold w_service. do 7 (apply in_or_app; right). apply in_or_app. left. apply in_map.
  unfold ms. apply (in_map (fun x => enc_msg d_method (pb_method x))). exact X.
Qed.
Lemma client_wire h pid e s : i32 pid -> wf_client s -> (len (enc_msg d_client (pb_client h pid e s)) < 2 ^ 64)%Z ->
  exists ms, Forall2 (fun m b => wire (w_method m) b) (cl_methods s) ms /\
    wire (w_client h pid e s ms) (enc_msg d_client (pb_client h pid e s)).
Proof.
  intros A W S. pose proof (client_compat h pid e s A W) as C.
  set (ms := map (fun x => enc_msg d_method (pb_method x)) (cl_methods s)).
  assert (E : wfs d_client (pb_client h pid e s) = w_client h pid e s ms).
  { unfold d_client, pb_client, w_client. wf_go. }
  exists ms. split; [|rewrite <- E; exact (wfs_ok _ _ _ C eq_refl S)].
  apply (list_wire _ wf_method 9 d_client _ (pb_client h pid e s) d_method pb_method _ C eq_refl S); [exact method_wire|apply W|].
  intros x X. rewrite E. unfold w_client. do 8 (apply in_or_app; right). apply in_map.
  unfold ms. apply (in_map (fun x => enc_msg d_method (pb_method x))). exact X.
Qed.
Lemma layer_wire l : wf_layer l -> (len (enc_msg d_layer (pb_layer l)) < 2 ^ 64)%Z -> layer_bytes l (enc_msg d_layer (pb_layer l)).
Proof.
  intros W S. pose proof (layer_compat l W) as C. destruct W as [W1 W2].
  set (pv := [VMsg false []; VMsg true [VStrs (ly_memfiles l)]; VMsg true [VInt (ly_port l)]]).
  assert (E : wfs d_layer (pb_layer l) = w_layer l (enc_msg d_par pv)).
  { unfold d_layer, pb_layer, w_layer. wf_go. }
  assert (S1 : (len (enc_msg d_par pv) < 2 ^ 64)%Z).
  { eapply (part_len _ _ _ 5 _ _ C eq_refl S). rewrite E. unfold w_layer. do 3 (apply in_or_app; right). apply in_or_app. left. now left. }
  assert (C1 : compat_l d_par [VMsg false []; VMsg false [VStrs []]; VMsg false [VInt 0]] pv).
  { unfold d_par, d_par_shm, d_par_tcp, pv. compat_tac. }
  assert (E1 : wfs d_par pv = [WBytes 2 (enc_msg d_par_shm [VStrs (ly_memfiles l)]); WBytes 4 (enc_msg d_par_tcp [VInt (ly_port l)])]).
  { unfold d_par, pv. wf_go. }
  exists (enc_msg d_par_shm [VStrs (ly_memfiles l)]), (enc_msg d_par_tcp [VInt (ly_port l)]), (enc_msg d_par pv). split; [|split; [|split]].
  - assert (map (WBytes 1) (ly_memfiles l) = wfs d_par_shm [VStrs (ly_memfiles l)]) as ->. { unfold d_par_shm. wf_go. }
    apply (wfs_ok _ [VStrs []]); [unfold d_par_shm; compat_tac|reflexivity|].
    eapply (part_len _ _ _ 2 _ _ C1 eq_refl S1). rewrite E1. now left.
  - assert (wnum 1 (ly_port l) = wfs d_par_tcp [VInt (ly_port l)]) as ->. { unfold d_par_tcp. wf_go. }
    apply (wfs_ok _ [VInt 0]); [unfold d_par_tcp; compat_tac|reflexivity|].
    eapply (part_len _ _ _ 4 _ _ C1 eq_refl S1). rewrite E1. right. now left.
  - rewrite <- E1. exact (wfs_ok _ _ _ C1 eq_refl S1).
  - rewrite <- E. exact (wfs_ok _ _ _ C eq_refl S).
Qed.
Lemma attr_wire kv : True -> (len (enc_msg d_attr (pb_attr kv)) < 2 ^ 64)%Z -> wire (w_attr kv) (enc_msg d_attr (pb_attr kv)).
Proof.
  intros _ S. assert (w_attr kv = wfs d_attr (pb_attr kv)) as ->. { unfold w_attr, d_attr, pb_attr. wf_go. }
  exact (wfs_ok _ _ _ (attr_compat kv) eq_refl S).
Qed.
Lemma topic_wire h pid e t : i32 pid -> wf_topic t -> (len (enc_msg d_topic (pb_topic pb_layer h pid e t)) < 2 ^ 64)%Z ->
  exists ls ats dt, Forall2 layer_bytes (tp_layers t) ls /\ Forall2 (fun a b => wire (w_attr a) b) (tp_attr t) ats /\
    wire (w_datatype (tp_dtype t)) dt /\ wire (w_topic h pid e t ls ats dt) (enc_msg d_topic (pb_topic pb_layer h pid e t)).
Proof.
  intros A W S. pose proof (topic_compat pb_layer t_layer layer_compat h pid e t A W) as C.
  set (ls := map (fun x => enc_msg d_layer (pb_layer x)) (tp_layers t)).
  set (ats := map (fun x => enc_msg d_attr (pb_attr x)) (tp_attr t)).
  set (dv := [cb (dt_name (tp_dtype t)); cb (dt_encoding (tp_dtype t)); cb (dt_desc (tp_dtype t))]).
  assert (E : wfs d_topic (pb_topic pb_layer h pid e t) = w_topic h pid e t ls ats (enc_msg d_datatype dv)).
  { unfold d_topic, pb_topic, w_topic. wf_go. }
  exists ls, ats, (enc_msg d_datatype dv). split; [|split; [|split]].
  - apply (list_wire _ wf_layer 12 d_topic _ _ d_layer pb_layer _ C eq_refl S); [exact layer_wire|apply W|].
    intros x X. rewrite E. unfold w_topic. do 8 (apply in_or_app; right). apply in_or_app. left. apply in_map.
    apply (in_map (fun x => enc_msg d_layer (pb_layer x))). exact X.
  - apply (list_wire _ (fun _ => True) 27 d_topic _ _ d_attr pb_attr _ C eq_refl S); [exact attr_wire|apply Forall_forall; trivial|].
    intros x X. rewrite E. unfold w_topic. do 16 (apply in_or_app; right). apply in_or_app. left. apply in_map.
    apply (in_map (fun x => enc_msg d_attr (pb_attr x))). exact X.
  - assert (w_datatype (tp_dtype t) = wfs d_datatype dv) as ->. { unfold w_datatype, d_datatype, dv. wf_go. }
    apply (wfs_ok _ [VStr []; VStr []; VStr []]); [unfold d_datatype, dv; compat_tac|reflexivity|].
    eapply (part_len _ _ _ 30 _ _ C eq_refl S). rewrite E. unfold w_topic. do 18 (apply in_or_app; right). now left.
  - rewrite <- E. exact (wfs_ok _ _ _ C eq_refl S).
Qed.
Lemma sample_wire s : wf_sample s -> (len (ser_sample s) < 2 ^ 64)%Z ->
  exists hb, wire (wstr 1 (sm_hname s)) hb /\
    (wire (wnum 1 (w_cmd (sm_cmd s)) ++ [WBytes 2 hb]) (ser_sample s) \/
     exists k b, sample_part s k b /\ wire (wnum 1 (w_cmd (sm_cmd s)) ++ [WBytes 2 hb; WBytes k b]) (ser_sample s)).
Proof.
  intros W S. pose proof (sample_compat s W) as C. unfold ser_sample in *.
  destruct W as (W1 & W2 & W3 & W4 & W5 & W6).
  set (hv := [cb (sm_hname s); VMsg false [VNull]]).
  assert (E : wfs d_sample (pb_sample s) = wnum 1 (w_cmd (sm_cmd s)) ++ WBytes 2 (enc_msg d_host hv) ::
    (if is_prc_cmd (sm_cmd s) then [WBytes 3 (enc_msg d_process (pb_process (sm_host s) (sm_pid s) (sm_process s)))] else []) ++
    (if is_srv_cmd (sm_cmd s) then [WBytes 4 (enc_msg d_service (pb_service (sm_host s) (sm_pid s) (sm_entity s) (sm_service s)))] else []) ++
    (if is_top_cmd (sm_cmd s) then [WBytes 5 (enc_msg d_topic (pb_topic pb_layer (sm_host s) (sm_pid s) (sm_entity s) (sm_topic s)))] else []) ++
    (if is_cli_cmd (sm_cmd s) then [WBytes 7 (enc_msg d_client (pb_client (sm_host s) (sm_pid s) (sm_entity s) (sm_client s)))] else [])).
  { rewrite w_cmd_code. unfold d_sample, pb_sample, no_msg.
    destruct (is_prc_cmd _), (is_srv_cmd _), (is_top_cmd _), (is_cli_cmd _); wf_go. }
  pose proof (wfs_ok _ _ _ C eq_refl S) as X. rewrite E in X.
  assert (S1 : forall k dk m, In (WBytes k (enc_msg dk m)) (wfs d_sample (pb_sample s)) -> (len (enc_msg dk m) < 2 ^ 64)%Z).
  { intros k dk m I. eapply (part_len _ _ _ k _ _ C eq_refl S I). }
  rewrite E in S1.
  exists (enc_msg d_host hv). split.
  { apply host_wire. apply (S1 2%Z). apply in_or_app. right. now left. }
  assert (S2 : forall k dk m, X = X -> In (WBytes k (enc_msg dk m)) (
    (if is_prc_cmd (sm_cmd s) then [WBytes 3 (enc_msg d_process (pb_process (sm_host s) (sm_pid s) (sm_process s)))] else []) ++
    (if is_srv_cmd (sm_cmd s) then [WBytes 4 (enc_msg d_service (pb_service (sm_host s) (sm_pid s) (sm_entity s) (sm_service s)))] else []) ++
    (if is_top_cmd (sm_cmd s) then [WBytes 5 (enc_msg d_topic (pb_topic pb_layer (sm_host s) (sm_pid s) (sm_entity s) (sm_topic s)))] else []) ++
    (if is_cli_cmd (sm_cmd s) then [WBytes 7 (enc_msg d_client (pb_client (sm_host s) (sm_pid s) (sm_entity s) (sm_client s)))] else []))
    -> (len (enc_msg dk m) < 2 ^ 64)%Z).
  { intros k dk m _ I. apply (S1 k). apply in_or_app. right. now right. }
  clear S1 E C. unfold sample_part.
  destruct (sm_cmd s); cbn [is_prc_cmd is_srv_cmd is_top_cmd is_pub_cmd is_sub_cmd is_cli_cmd orb app] in *; try (left; exact X); right.
  all: match type of X with wire (_ ++ [WBytes _ _; WBytes ?k ?b]) _ => exists k, b end; (split; [|exact X]).
  all: repeat match goal with |- (false = true /\ _) \/ _ => right | |- (true = true /\ _) \/ _ => left end.
  all: (split; [reflexivity|]); (split; [reflexivity|]).
  all: first [apply process_wire | apply service_wire | apply topic_wire | apply client_wire]; try assumption;
    match type of X with wire (_ ++ [WBytes _ _; WBytes ?k ?b]) _ => apply (S2 k); [reflexivity|now left] end.
Qed.
Lemma log_wire l : wf_log l -> (len (ser_log l) < 2 ^ 64)%Z -> wire (w_log l) (ser_log l).
Proof.
  intros W S. unfold ser_log in *. assert (w_log l = wfs d_log (pb_log l)) as ->. { unfold w_log, d_log, pb_log. wf_go. }
  exact (wfs_ok _ _ _ (log_compat l W) eq_refl S).
Qed.
