From Verif Require Import Base Sample PbModel PbSpec PbProofs PbRound PbExt SerModel SerSpec.
From Coq Require Import Lia ZArith Sorting.Sorted.

(** ** Tactics for one message *)
Ltac str_case := match goal with |- context [match ?s with [] => VNull | _ :: _ => VStr ?s end] => destruct s end.
Ltac field_eq := lazy; repeat match goal with |- context [match ?s with [] => _ | _ :: _ => _ end] => destruct s end; reflexivity.
Lemma up_str o s : upd FCallStr (VStr o) (cb s) = VStr (keep o s).
Proof. destruct s; reflexivity. Qed.
Lemma up_vstr o s : upd FCallStr (VStr o) (VStr s) = VStr s.
Proof. reflexivity. Qed.
Lemma up_strs a b : upd FCallStr (VStrs a) (VStrs b) = VStrs (a ++ b).
Proof. reflexivity. Qed.
Lemma up_i32 a z : upd FI32 (VInt a) (VInt z) = VInt z.
Proof. reflexivity. Qed.
Lemma up_i64 a z : upd FI64 (VInt a) (VInt z) = VInt z.
Proof. reflexivity. Qed.
Lemma up_u32 a z : upd FU32 (VInt a) (VInt z) = VInt z.
Proof. reflexivity. Qed.
Lemma up_bool a z : upd FBool (VInt a) (VInt z) = VInt z.
Proof. reflexivity. Qed.
Lemma up_null t : upd FCallStr t VNull = t.
Proof. destruct t; reflexivity. Qed.
Lemma upd_no d h a b : upd (FMsg d) (VMsg h a) (VMsg false b) = VMsg h a.
Proof. reflexivity. Qed.
Lemma keep_nil s : keep [] s = s.
Proof. destruct s; reflexivity. Qed.
Lemma upd_cons k f d x t y v : upd_l ((k, f) :: d) (x :: t) (y :: v) = upd f x y :: upd_l d t v.
Proof. reflexivity. Qed.
Lemma upd_nil : upd_l [] [] [] = [].
Proof. reflexivity. Qed.
Ltac upd_go := cbn [map defaults ds];
  repeat rewrite ?upd_cons, ?upd_nil, ?upd_msg, ?upd_no, ?upd_msgs, ?up_str, ?up_vstr, ?up_strs, ?up_i32, ?up_i64, ?up_u32, ?up_bool, ?up_null, ?keep_nil;
  cbn [fi fs fm fss fms nth app].
Lemma compat_cb s : compat FCallStr ds (cb s).
Proof. destruct s; exact Logic.I. Qed.
Lemma compat_cb' s t : compat FCallStr (VStr t) (cb s).
Proof. destruct s; exact Logic.I. Qed.
Lemma compat_cb_null s : compat FCallStr VNull (cb s).
Proof. destruct s; exact Logic.I. Qed.
Lemma compat_nil : compat_l [] [] [] = True.
Proof. reflexivity. Qed.
Lemma compat_cons k f d x t y v : compat_l ((k, f) :: d) (x :: t) (y :: v) = (compat f x y /\ compat_l d t v).
Proof. reflexivity. Qed.
Lemma compat_i32 z : i32 z -> compat FI32 (VInt 0) (VInt z).
Proof. now split. Qed.
Lemma compat_i64 z : i64 z -> compat FI64 (VInt 0) (VInt z).
Proof. now split. Qed.
Lemma compat_u32 z : u32 z -> compat FU32 (VInt 0) (VInt z).
Proof. now split. Qed.
Lemma compat_bool b : compat FBool (VInt 0) (VInt (bit b)).
Proof. split; [reflexivity|]. destruct b; [now right|now left]. Qed.
Lemma compat_i0 ty : In ty [FI32; FI64; FU32; FBool] -> compat ty (VInt 0) (VInt 0).
Proof. intros [<-|[<-|[<-|[<-|[]]]]]; (split; [reflexivity|]); unfold i32, i64, u32; lia. Qed.
Lemma compat_null v : compat FCallStr v VNull \/ (forall s l, v <> VStr s /\ v <> VStrs l /\ v <> VNull).
Proof. destruct v; try (left; exact Logic.I); right; repeat split; discriminate. Qed.
Ltac compat_tac :=
  repeat first [exact Logic.I | apply compat_cb | apply compat_cb' | apply compat_cb_null
               | apply compat_bool | apply compat_i32; assumption | apply compat_i64; assumption | apply compat_u32; assumption
               | rewrite compat_cons; split | rewrite compat_msg | rewrite compat_msgs | assumption ].
Ltac compat_go := cbn [map defaults ds app]; compat_tac.

Lemma deserialize_ext {A} d t (f : list fval -> A) v bs : bs <> [] -> ext_msg d d v bs -> compat_l d (map defaults t) v -> wf_d d = true ->
  (len bs < 2 ^ 32)%Z -> deserialize d t f bs = Ok (f (upd_l d (map defaults t) v)).
Proof.
  intros N X C W S. unfold deserialize. destruct bs eqn:E; [now elim N|]. rewrite <- E in *.
  now rewrite (pb_decode_ext d t v bs).
Qed.
(** ** Requests and responses *)
Lemma header_compat h : wf_header h -> compat_l d_header (map defaults t_header) (pb_header h).
Proof. intros [A B]. unfold d_header, t_header, pb_header. compat_go. Qed.
Lemma header_rt h : header_of (upd_l d_header (map defaults t_header) (pb_header h)) = h.
Proof. destruct h as [a b c d e i s]. unfold header_of, d_header, t_header, pb_header. upd_go. reflexivity. Qed.
Lemma ext_nonempty D k f d x m bs : ext_msg D ((k, f) :: d) (x :: m) bs -> (forall b, ext_field k f x b -> b <> []) -> bs <> [].
Proof.
  remember ((k, f) :: d) as d0. remember (x :: m) as m0. intros X H.
  induction X as [|D k' f' d' x' m' b b' X1 X2 IH|D d' m' u b U X IH].
  - discriminate.
  - injection Heqd0 as -> -> ->. injection Heqm0 as -> ->. apply H in X1. destruct b; [now elim X1|discriminate].
  - specialize (IH Heqd0 Heqm0). destruct u; [exact IH|discriminate].
Qed.
Lemma ext_nonempty_tl D k f d x m bs : ext_msg D ((k, f) :: d) (x :: m) bs -> (forall b, ext_msg D d m b -> b <> []) -> bs <> [].
Proof.
  remember ((k, f) :: d) as d0. remember (x :: m) as m0. intros X H.
  induction X as [|D k' f' d' x' m' b b' X1 X2 IH|D d' m' u b U X IH].
  - discriminate.
  - injection Heqd0 as -> -> ->. injection Heqm0 as -> ->. apply H in X2. destruct b; [exact X2|discriminate].
  - specialize (IH Heqd0 Heqm0 H). destruct u; [exact IH|discriminate].
Qed.
Lemma wire_bytes_nonempty tag b bs : wire [WBytes tag b] bs -> bs <> [].
Proof. intros W. inversion W as [| |? ? ? tb lb r V1 V2 W']; subst. inversion V1; subst; discriminate. Qed.
Lemma ext_msg_field_nonempty k d m b : ext_field k (FMsg d) (VMsg true m) b -> b <> [].
Proof.
  intros X. inversion X; subst; try match goal with H : In _ _ |- _ => cbn in H; intuition discriminate end.
  eapply wire_bytes_nonempty; eassumption.
Qed.
Lemma ext_msgs_field_nonempty k d e m l b : ext_field k (FCallMsg d) (VMsgs e (m :: l)) b -> b <> [].
Proof.
  intros X. inversion X; subst; try match goal with H : In _ _ |- _ => cbn in H; intuition discriminate end.
  match goal with H : wire [WBytes _ _] ?x |- _ => apply wire_bytes_nonempty in H; destruct x; [now elim H|discriminate] end.
Qed.

Lemma request_compat r : wf_request r -> compat_l d_request (map defaults [VMsg false t_header; ds]) (pb_request r).
Proof. intros W. unfold d_request, pb_request. compat_go. now apply header_compat. Qed.
Lemma request_ext r bs : wf_request r -> ext_msg d_request d_request (pb_request r) bs -> (len bs < 2 ^ 32)%Z -> de_request bs = Ok r.
Proof.
  intros W X S. unfold de_request. erewrite deserialize_ext; [|shelve|exact X|now apply request_compat|reflexivity|exact S].
  Unshelve.
  - destruct r as [h q]. f_equal. unfold d_request, pb_request. cbn [rq_header rq_request].
    cbn [map]. change (defaults (VMsg false t_header)) with (VMsg false (map defaults t_header)). change (defaults ds) with (VStr []).
    rewrite !upd_cons, upd_msg, up_str, keep_nil, upd_nil. cbn [fm fs nth]. now rewrite header_rt.
  - eapply ext_nonempty; [exact X|]. apply ext_msg_field_nonempty.
Qed.
Lemma response_compat r : wf_response r -> compat_l d_response (map defaults [VMsg false t_header; ds; VInt 0]) (pb_response r).
Proof. intros [W W2]. unfold d_response, pb_response. compat_go. now apply header_compat. Qed.
Lemma response_ext r bs : wf_response r -> ext_msg d_response d_response (pb_response r) bs -> (len bs < 2 ^ 32)%Z -> de_response bs = Ok r.
Proof.
  intros W X S. unfold de_response. erewrite deserialize_ext; [|shelve|exact X|now apply response_compat|reflexivity|exact S].
  Unshelve.
  - destruct r as [h q z]. f_equal. unfold d_response, pb_response. cbn [rp_header rp_response rp_ret].
    cbn [map]. change (defaults (VMsg false t_header)) with (VMsg false (map defaults t_header)). change (defaults ds) with (VStr []).
    change (defaults (VInt 0)) with (VInt 0).
    rewrite !upd_cons, upd_msg, up_str, keep_nil, up_i64, upd_nil. cbn [fm fs fi nth]. now rewrite header_rt.
  - eapply ext_nonempty; [exact X|]. apply ext_msg_field_nonempty.
Qed.

(** ** Enumerations *)
Lemma cmd_rt c : wf_cmd c -> cmd_of (cmd_code c) = c.
Proof.
  intros W. destruct c; try reflexivity. destruct (W z eq_refl) as [_ N]. cbn [cmd_code]. unfold cmd_of.
  repeat match goal with |- context [Z.eqb z ?k] =>
    destruct (Z.eqb_spec z k) as [->|?]; [exfalso; apply N; cbn; tauto|] end. reflexivity.
Qed.
Lemma cmd_u32 c : wf_cmd c -> u32 (cmd_code c).
Proof. intros W. destruct c; try (unfold u32; cbn [cmd_code]; lia). apply (W z eq_refl). Qed.
Lemma lt_rt l : lt_of (lt_code l) = l.
Proof. destruct l; reflexivity. Qed.
Lemma lt_u32 l : u32 (lt_code l).
Proof. destruct l; unfold u32; cbn [lt_code]; lia. Qed.
Lemma bit_rt b : nz (bit b) = b.
Proof. destruct b; reflexivity. Qed.

(** ** Payload *)
Lemma pl_topic_compat a b c a' b' c' :
  compat_l d_topic (pl_topic (VStr a) (VStr b) (VStr c)) (pl_topic (cb a') (cb b') (cb c')).
Proof.
  unfold pl_topic, d_topic. compat_tac; split; try reflexivity; unfold i32, i64; lia.
Qed.
Lemma psample_compat t p : wf_psample p -> compat_l d_sample (map defaults (t_psample t)) (pb_psample p).
Proof.
  intros (W1 & W2 & W3 & W4 & W5 & W6). pose proof (cmd_u32 _ W1). unfold d_sample, t_psample, pb_psample. compat_go.
  1: apply pl_topic_compat. unfold d_content. compat_tac.
Qed.
Lemma psample_nonempty D p bs : ext_msg D d_sample (pb_psample p) bs -> bs <> [].
Proof.
  intros X. eapply ext_nonempty_tl; [exact X|]. clear X bs; intros bs X.
  eapply ext_nonempty_tl; [exact X|]. clear X bs; intros bs X. eapply ext_nonempty_tl; [exact X|]. clear X bs; intros bs X.
  eapply ext_nonempty_tl; [exact X|]. clear X bs; intros bs X. eapply ext_nonempty; [exact X|]. apply ext_msg_field_nonempty.
Qed.
Lemma payload_into_ext t p bs : wf_psample p -> ext_msg d_sample d_sample (pb_psample p) bs -> (len bs < 2 ^ 32)%Z ->
  de_payload_into t bs =
  Ok (PSample (ps_cmd p) (keep (ps_hname t) (ps_hname p)) (keep (ps_tid t) (ps_tid p)) (keep (ps_tname t) (ps_tname p))
        (ps_id p) (ps_clock p) (ps_time p) (ps_hash p) (ps_size p) (keep (ps_payload t) (ps_payload p)) (ps_padding p)).
Proof.
  intros W X S. unfold de_payload_into.
  erewrite deserialize_ext; [|eapply psample_nonempty, X|exact X|now apply psample_compat|reflexivity|exact S].
  f_equal. unfold psample_of, d_sample, t_psample, pb_psample, pl_topic, d_topic, d_content. upd_go. now rewrite cmd_rt by apply W.
Qed.
Lemma payload_ext p bs : wf_psample p -> ext_msg d_sample d_sample (pb_psample p) bs -> (len bs < 2 ^ 32)%Z -> de_payload bs = Ok p.
Proof.
  intros W X S. unfold de_payload. rewrite (payload_into_ext _ _ _ W X S). f_equal. destruct p as [c h i n a b e k z pl pd].
  cbn [ps_cmd ps_hname ps_tid ps_tname ps_id ps_clock ps_time ps_hash ps_size ps_payload ps_padding psample0]. now rewrite !keep_nil.
Qed.

(** ** Parts of a registration *)
Lemma method_compat m : wf_method m -> compat_l d_method (map defaults t_method) (pb_method m).
Proof. intros W. unfold wf_method, d_method, t_method, pb_method in *. compat_go. Qed.
Lemma method_rt m : method_of (upd_l d_method (map defaults t_method) (pb_method m)) = m.
Proof. destruct m. unfold method_of, d_method, t_method, pb_method. upd_go. reflexivity. Qed.
Lemma layer_compat l : wf_layer l -> compat_l d_layer (map defaults t_layer) (pb_layer l).
Proof. intros [A B]. pose proof (lt_u32 (ly_type l)). unfold d_layer, d_par, d_par_shm, d_par_tcp, t_layer, pb_layer in *. compat_go. Qed.
Lemma layer_rt l : layer_of (upd_l d_layer (map defaults t_layer) (pb_layer l)) = l.
Proof.
  destruct l as [t v e a p m]. unfold layer_of, d_layer, d_par, d_par_shm, d_par_tcp, t_layer, pb_layer. upd_go.
  now rewrite lt_rt, !bit_rt.
Qed.
Lemma mlayer_compat l : wf_layer l -> compat_l d_layer (map defaults t_mlayer) (pb_mlayer l).
Proof.
  intros [A B]. pose proof (lt_u32 (ly_type l)). unfold d_layer, d_par, d_par_shm, d_par_tcp, t_mlayer, pb_mlayer in *. compat_go.
  apply (compat_bool false).
Qed.
Lemma mlayer_rt l : mon_layer l -> mlayer_of (upd_l d_layer (map defaults t_mlayer) (pb_mlayer l)) = l.
Proof.
  destruct l as [t v e a p m]. intros (A & B & C). cbn in A, B, C. subst.
  unfold mlayer_of, d_layer, d_par, d_par_shm, d_par_tcp, t_mlayer, pb_mlayer. upd_go. now rewrite lt_rt, !bit_rt.
Qed.
Lemma attr_compat kv : compat_l d_attr (map defaults t_attr) (pb_attr kv).
Proof. unfold d_attr, t_attr, pb_attr. compat_go. Qed.
Lemma tlt_less a b : tless a b -> tlt a b = true.
Proof.
  induction 1; [reflexivity| |].
  - cbn. destruct (Z.ltb_spec x y); [reflexivity|lia].
  - cbn. destruct (Z.ltb_spec x x); [lia|assumption].
Qed.
Lemma tlt_asym a b : tless a b -> tlt b a = false.
Proof.
  induction 1; [reflexivity| |].
  - cbn. destruct (Z.ltb_spec y x); [lia|]. destruct (Z.ltb_spec x y); [reflexivity|lia].
  - cbn. destruct (Z.ltb_spec x x); [lia|assumption].
Qed.
Lemma map_set_end m k v : Forall (fun x => tless x k) (map fst m) -> map_set k v m = m ++ [(k, v)].
Proof.
  induction m as [|[k' v'] m IH]; intros F; [reflexivity|]. inversion F as [|? ? F1 F2]; subst. cbn [map_set app].
  rewrite (tlt_asym _ _ F1), (tlt_less _ _ F1). now rewrite IH.
Qed.
Lemma fold_map_set m : forall a, is_map (a ++ m) -> fold_left (fun x kv => map_set (fst kv) (snd kv) x) m a = a ++ m.
Proof.
  induction m as [|[k v] m IH]; intros a W; [now rewrite app_nil_r|]. cbn [fold_left fst snd].
  assert (F : Forall (fun x => tless x k) (map fst a)).
  { unfold is_map in W. rewrite map_app in W. cbn [map fst] in W. clear IH. induction a as [|[k' v'] a IH]; [constructor|].
    cbn [map fst app] in *. inversion W as [|? ? W1 W2]; subst. constructor; [|now apply IH].
    apply Forall_app in W2 as [_ W2]. now inversion W2. }
  rewrite (map_set_end _ _ _ F). rewrite IH; rewrite <- app_assoc; [reflexivity|exact W].
Qed.
Lemma attr_rt m : is_map m -> attr_of (map (upd_l d_attr (map defaults t_attr)) (map pb_attr m)) = m.
Proof.
  intros W. unfold attr_of. transitivity (fold_left (fun x kv => map_set (fst kv) (snd kv) x) m []).
  - generalize (@nil (text * text)). clear W. induction m as [|[k v] m IH]; intros a; [reflexivity|].
    cbn [map fold_left]. rewrite <- IH. f_equal. f_equal; destruct k, v; reflexivity.
  - now apply (fold_map_set m []).
Qed.

Lemma map_rt {A B} (g : B -> A) (h : A -> B) (P : A -> Prop) l : (forall x, P x -> g (h x) = x) -> Forall P l -> map g (map h l) = l.
Proof.
  intros H F. rewrite map_map. induction F as [|x l Px F IH]; [reflexivity|]. cbn. now rewrite H, IH.
Qed.
Lemma map_rt2 {A B C} (g : C -> A) (u : B -> C) (h : A -> B) (P : A -> Prop) l :
  (forall x, P x -> g (u (h x)) = x) -> Forall P l -> map g (map u (map h l)) = l.
Proof. intros H F. rewrite (map_map u g). now apply (map_rt (fun x => g (u x)) h P). Qed.
Lemma forall_map {A B} (P : B -> Prop) (Q : A -> Prop) (f : A -> B) l : (forall x, Q x -> P (f x)) -> Forall Q l -> Forall P (map f l).
Proof. intros H F. induction F; constructor; auto. Qed.

Lemma process_compat h pid p : i32 pid -> wf_process p -> compat_l d_process (map defaults t_process) (pb_process h pid p).
Proof. intros A (B & C & D & E & F). unfold d_process, d_state, t_process, pb_process. compat_go. Qed.
Lemma process_rt h pid p : let m := upd_l d_process (map defaults t_process) (pb_process h pid p) in
  process_of m = p /\ fs 1 m = h /\ fi 2 m = pid.
Proof. destruct p. unfold process_of, d_process, d_state, t_process, pb_process. upd_go. repeat split. Qed.
Lemma service_compat h pid e s : i32 pid -> wf_service s -> compat_l d_service (map defaults t_service) (pb_service h pid e s).
Proof.
  intros A (B & C & D & E & F). unfold d_service, t_service, pb_service. compat_go.
  exact (forall_map _ _ _ _ method_compat C).
Qed.
Lemma service_rt h pid e s : let m := upd_l d_service (map defaults t_service) (pb_service h pid e s) in
  service_of m = s /\ fs 1 m = h /\ fi 4 m = pid /\ fs 8 m = e.
Proof.
  destruct s as [a b c d ms v p q]. unfold service_of, d_service, t_service, pb_service. upd_go. split; [|repeat split].
  f_equal. apply (map_rt2 _ _ _ (fun _ => True)); [intros; apply method_rt|]. apply Forall_forall. trivial.
Qed.
Lemma client_compat h pid e s : i32 pid -> wf_client s -> compat_l d_client (map defaults t_client) (pb_client h pid e s).
Proof.
  intros A (B & C & D). unfold d_client, t_client, pb_client. compat_go.
  exact (forall_map _ _ _ _ method_compat C).
Qed.
Lemma client_rt h pid e s : let m := upd_l d_client (map defaults t_client) (pb_client h pid e s) in
  client_of m = s /\ fs 1 m = h /\ fi 4 m = pid /\ fs 6 m = e.
Proof.
  destruct s as [a b c d ms v]. unfold client_of, d_client, t_client, pb_client. upd_go. split; [|repeat split].
  f_equal. apply (map_rt2 _ _ _ (fun _ => True)); [intros; apply method_rt|]. apply Forall_forall. trivial.
Qed.
Section Topic.
  Variables (pl : tlayer -> list fval) (tl : list fval) (lo : list fval -> tlayer) (P : tlayer -> Prop).
  Hypothesis pl_compat : forall l, wf_layer l -> compat_l d_layer (map defaults tl) (pl l).
  Hypothesis pl_rt : forall l, P l -> lo (upd_l d_layer (map defaults tl) (pl l)) = l.
  Lemma topic_compat h pid e t : i32 pid -> wf_topic t ->
    compat_l d_topic (map defaults (t_topic tl)) (pb_topic pl h pid e t).
  Proof.
    intros A (B & C & D & E & F & G & H & I & J & K). unfold d_topic, d_datatype, t_topic, pb_topic. compat_go.
    - exact (forall_map _ _ _ _ pl_compat C).
    - apply (forall_map _ (fun _ => True)); [intros; apply attr_compat|]. apply Forall_forall. trivial.
  Qed.
  Lemma topic_rt h pid e t : wf_topic t -> Forall P (tp_layers t) ->
    let m := upd_l d_topic (map defaults (t_topic tl)) (pb_topic pl h pid e t) in
    topic_of lo m = t /\ fs 1 m = h /\ fi 2 m = pid /\ fs 5 m = e.
  Proof.
    intros (B & C & D & E & F & G & H & I & J & K) FP.
    destruct t as [a b c d e' f [g1 g2 g3] ly i j k l m n o at']. cbn [tp_layers tp_attr] in *.
    unfold topic_of, d_topic, d_datatype, t_topic, pb_topic. upd_go. split; [|repeat split].
    cbn [tp_layers tp_attr]. rewrite (attr_rt at' K), (map_rt2 lo _ pl P ly pl_rt FP). reflexivity.
  Qed.
End Topic.

(** ** Registration samples *)
Definition z_topic' := map defaults (t_topic t_layer).
Definition z_service' := map defaults t_service.
Definition z_client' := map defaults t_client.
Definition z_process' := map defaults t_process.
Definition parts (s : sample) : list fval :=
  let c := sm_cmd s in
  [VInt (cmd_code c); VMsg true [VStr (sm_hname s); VMsg false [VNull]];
   (if is_prc_cmd c then VMsg true (upd_l d_process z_process' (pb_process (sm_host s) (sm_pid s) (sm_process s))) else VMsg false z_process');
   (if is_srv_cmd c then VMsg true (upd_l d_service z_service' (pb_service (sm_host s) (sm_pid s) (sm_entity s) (sm_service s))) else VMsg false z_service');
   (if is_top_cmd c then VMsg true (upd_l d_topic z_topic' (pb_topic pb_layer (sm_host s) (sm_pid s) (sm_entity s) (sm_topic s))) else VMsg false z_topic');
   VMsg false [VInt 0; VInt 0; VInt 0; VNull; VInt 0; VInt 0];
   (if is_cli_cmd c then VMsg true (upd_l d_client z_client' (pb_client (sm_host s) (sm_pid s) (sm_entity s) (sm_client s))) else VMsg false z_client');
   VNull].
Lemma sample_parts s : upd_l d_sample (map defaults t_sample) (pb_sample s) = parts s.
Proof.
  unfold parts, pb_sample, t_sample, d_sample. unfold no_msg. cbn [map].
  change (defaults (VInt 0)) with (VInt 0). change (defaults VNull) with VNull.
  change (defaults (VMsg false t_process)) with (VMsg false z_process').
  change (defaults (VMsg false t_service)) with (VMsg false z_service').
  change (defaults (VMsg false (t_topic t_layer))) with (VMsg false z_topic').
  change (defaults (VMsg false t_client)) with (VMsg false z_client').
  change (defaults (VMsg false [ds; VMsg false [VNull]])) with (VMsg false [VStr []; VMsg false [VNull]]).
  repeat rewrite upd_cons. rewrite upd_nil. rewrite up_null, up_u32.
  change (upd (FMsg d_host) (VMsg false [VStr []; VMsg false [VNull]]) (VMsg true [cb (sm_hname s); VMsg false [VNull]]))
    with (VMsg true [upd FCallStr (VStr []) (cb (sm_hname s)); VMsg false [VNull]]).
  rewrite up_str, keep_nil.
  destruct (sm_cmd s); reflexivity.
Qed.
Lemma fm_msg n l b x : nth n l VNull = VMsg b x -> fm n l = x.
Proof. unfold fm. now intros ->. Qed.
Lemma last1 a : last_str [a; []; []] = a.
Proof. destruct a; reflexivity. Qed.
Lemma last2 a : last_str [[]; a; []] = a.
Proof. destruct a; reflexivity. Qed.
Lemma last3 a : last_str [[]; []; a] = a.
Proof. destruct a; reflexivity. Qed.
Lemma last0 : last_str [[]; []; []] = [].
Proof. reflexivity. Qed.
Lemma lastp a : last_str [a; []; []; []] = a.
Proof. destruct a; reflexivity. Qed.
Lemma lasts a : last_str [[]; a; []; []] = a.
Proof. destruct a; reflexivity. Qed.
Lemma lastt a : last_str [[]; []; a; []] = a.
Proof. destruct a; reflexivity. Qed.
Lemma lastc a : last_str [[]; []; []; a] = a.
Proof. destruct a; reflexivity. Qed.
Lemma zp : process_of z_process' = process0. Proof. reflexivity. Qed.
Lemma zs : service_of z_service' = service0. Proof. reflexivity. Qed.
Lemma zc : client_of z_client' = client0. Proof. reflexivity. Qed.
Lemma zt : topic_of layer_of z_topic' = topic0. Proof. reflexivity. Qed.
Lemma zp1 : fs 1 z_process' = []. Proof. reflexivity. Qed.
Lemma zs1 : fs 1 z_service' = []. Proof. reflexivity. Qed.
Lemma zc1 : fs 1 z_client' = []. Proof. reflexivity. Qed.
Lemma zt1 : fs 1 z_topic' = []. Proof. reflexivity. Qed.
Lemma zs8 : fs 8 z_service' = []. Proof. reflexivity. Qed.
Lemma zt5 : fs 5 z_topic' = []. Proof. reflexivity. Qed.
Lemma zc6 : fs 6 z_client' = []. Proof. reflexivity. Qed.
Lemma sample_rt s : wf_sample s -> sample_of (parts s) = arrives s.
Proof.
  intros (W1 & W2 & W3 & W4 & W5 & W6). destruct s as [e pid host c hn os p sv cl t].
  cbn [sm_cmd sm_pid sm_process sm_service sm_client sm_topic] in *.
  unfold sample_of, parts, arrives. cbn [sm_cmd sm_pid sm_process sm_service sm_client sm_topic sm_entity sm_host sm_hname].
  cbn [fi nth]. rewrite (cmd_rt c W1).
  pose proof (process_rt host pid p) as (P1 & P2 & P3).
  pose proof (service_rt host pid e sv) as (S1 & S2 & S3 & S4).
  pose proof (client_rt host pid e cl) as (C1 & C2 & C3 & C4).
  pose proof (topic_rt pb_layer t_layer layer_of (fun _ => True) (fun l _ => layer_rt l) host pid e t W6
    ltac:(apply Forall_forall; trivial)) as (T1 & T2 & T3 & T4).
  fold z_process' in *. fold z_service' in *. fold z_client' in *. fold z_topic' in *.
  set (mp := upd_l d_process _ _) in *. set (ms := upd_l d_service _ _) in *. set (mt := upd_l d_topic _ _) in *. set (mc := upd_l d_client _ _) in *.
  clearbody mp ms mt mc.
  destruct c; cbn [is_prc_cmd is_srv_cmd is_cli_cmd is_pub_cmd is_sub_cmd is_top_cmd orb fm nth fs];
    rewrite ?zp, ?zs, ?zc, ?zt, ?P1, ?S1, ?C1, ?T1, ?P2, ?S2, ?C2, ?T2, ?P3, ?S3, ?C3, ?T3, ?S4, ?C4, ?T4, ?zp1, ?zs1, ?zc1, ?zt1, ?zs8, ?zt5, ?zc6;
    rewrite ?last1, ?last2, ?last3, ?last0; rewrite ?lastp, ?lasts, ?lastt, ?lastc; reflexivity.
Qed.
Lemma sample_compat s : wf_sample s -> compat_l d_sample (map defaults t_sample) (pb_sample s).
Proof.
  intros (W1 & W2 & W3 & W4 & W5 & W6). pose proof (cmd_u32 _ W1). unfold d_sample, pb_sample, t_sample, no_msg. cbn [map].
  change (defaults (VInt 0)) with (VInt 0). change (defaults VNull) with VNull.
  change (defaults (VMsg false t_process)) with (VMsg false z_process').
  change (defaults (VMsg false t_service)) with (VMsg false z_service').
  change (defaults (VMsg false (t_topic t_layer))) with (VMsg false z_topic').
  change (defaults (VMsg false t_client)) with (VMsg false z_client').
  change (defaults (VMsg false [ds; VMsg false [VNull]])) with (VMsg false [VStr []; VMsg false [VNull]]).
  rewrite compat_cons; split; [now apply compat_u32|].
  rewrite compat_cons; split; [rewrite compat_msg; unfold d_host; compat_tac|].
  rewrite compat_cons; split; [destruct (is_prc_cmd _); [|exact Logic.I]; rewrite compat_msg; now apply process_compat|].
  rewrite compat_cons; split; [destruct (is_srv_cmd _); [|exact Logic.I]; rewrite compat_msg; now apply service_compat|].
  rewrite compat_cons; split.
  { destruct (is_top_cmd _); [|exact Logic.I]. rewrite compat_msg. apply topic_compat; [exact layer_compat|assumption|assumption]. }
  rewrite compat_cons; split; [exact Logic.I|].
  rewrite compat_cons; split; [destruct (is_cli_cmd _); [|exact Logic.I]; rewrite compat_msg; now apply client_compat|].
  rewrite compat_cons; split; exact Logic.I.
Qed.
Lemma pb_sample_nonempty D s bs : ext_msg D d_sample (pb_sample s) bs -> bs <> [].
Proof.
  intros X. eapply ext_nonempty_tl; [exact X|]. clear X bs; intros bs X.
  eapply ext_nonempty; [exact X|]. apply ext_msg_field_nonempty.
Qed.
Lemma sample_ext s bs : wf_sample s -> ext_msg d_sample d_sample (pb_sample s) bs -> (len bs < 2 ^ 32)%Z ->
  de_sample bs = Ok (arrives s).
Proof.
  intros W X S. unfold de_sample.
  erewrite deserialize_ext; [|eapply pb_sample_nonempty, X|exact X|now apply sample_compat|reflexivity|exact S].
  rewrite sample_parts. f_equal. now apply sample_rt.
Qed.
Lemma samples_compat l : Forall wf_sample l -> compat_l d_samples (map defaults [VMsgs t_sample []]) (pb_samples l).
Proof.
  intros W. unfold d_samples, pb_samples. cbn [map]. change (defaults (VMsgs t_sample [])) with (VMsgs t_sample []).
  rewrite compat_cons. split; [|exact Logic.I]. rewrite compat_msgs. exact (forall_map _ _ _ _ sample_compat W).
Qed.
Lemma samples_ext l bs : l <> [] -> Forall wf_sample l -> ext_msg d_samples d_samples (pb_samples l) bs -> (len bs < 2 ^ 32)%Z ->
  de_samples bs = Ok (map arrives l).
Proof.
  intros N W X S. unfold de_samples.
  erewrite deserialize_ext; [|shelve|exact X|now apply samples_compat|reflexivity|exact S].
  Unshelve.
  - unfold d_samples, pb_samples. cbn [map]. change (defaults (VMsgs t_sample [])) with (VMsgs t_sample []). rewrite upd_cons, upd_msgs, upd_nil.
    cbn [fms nth app]. f_equal. clear N S X. induction W as [|s l Ws W IH]; [reflexivity|]. cbn [map]. rewrite IH. f_equal.
    rewrite sample_parts. now apply sample_rt.
  - destruct l as [|s l]; [now elim N|]. cbn [pb_samples map] in X. eapply ext_nonempty; [exact X|]. apply ext_msgs_field_nonempty.
Qed.

(** ** Log messages *)
Lemma log_compat l : wf_log l -> compat_l d_log (map defaults t_log) (pb_log l).
Proof. intros (A & B & C). unfold d_log, t_log, pb_log. compat_go. Qed.
Lemma log_rt l : log_of (upd_l d_log (map defaults t_log) (pb_log l)) = l.
Proof. destruct l. unfold log_of, d_log, t_log, pb_log. upd_go. reflexivity. Qed.
Lemma log_ext l bs : bs <> [] -> wf_log l -> ext_msg d_log d_log (pb_log l) bs -> (len bs < 2 ^ 32)%Z -> de_log bs = Ok l.
Proof.
  intros N W X S. unfold de_log. erewrite deserialize_ext; [|exact N|exact X|now apply log_compat|reflexivity|exact S].
  now rewrite log_rt.
Qed.
Lemma logs_compat l : Forall wf_log l -> compat_l d_logs (map defaults [VMsgs t_log []]) (pb_logs l).
Proof.
  intros W. unfold d_logs, pb_logs. cbn [map]. change (defaults (VMsgs t_log [])) with (VMsgs t_log []).
  rewrite compat_cons. split; [|exact Logic.I]. rewrite compat_msgs. exact (forall_map _ _ _ _ log_compat W).
Qed.
Lemma logs_ext l bs : l <> [] -> Forall wf_log l -> ext_msg d_logs d_logs (pb_logs l) bs -> (len bs < 2 ^ 32)%Z -> de_logs bs = Ok l.
Proof.
  intros N W X S. unfold de_logs. erewrite deserialize_ext; [|shelve|exact X|now apply logs_compat|reflexivity|exact S].
  Unshelve.
  - unfold d_logs, pb_logs. cbn [map]. change (defaults (VMsgs t_log [])) with (VMsgs t_log []). rewrite upd_cons, upd_msgs, upd_nil.
    cbn [fms nth app]. f_equal. apply (map_rt2 _ _ _ wf_log); [intros; apply log_rt|exact W].
  - destruct l as [|s l]; [now elim N|]. cbn [pb_logs map] in X. eapply ext_nonempty; [exact X|]. apply ext_msgs_field_nonempty.
Qed.

(** ** Monitoring *)
Lemma with_dir_app d a b : with_dir d (a ++ b) = with_dir d a ++ with_dir d b.
Proof. apply filter_app. Qed.
Lemma with_dir_all d l : Forall (wf_mtopic d) l -> with_dir d l = l.
Proof.
  induction 1 as [|[[[h p] e] t] l W F IH]; [reflexivity|]. unfold with_dir in *. cbn [filter snd].
  destruct W as (_ & _ & _ & ->). now rewrite eqb_refl, IH.
Qed.
Lemma with_dir_none d d' l : d <> d' -> Forall (wf_mtopic d) l -> with_dir d' l = [].
Proof.
  intros N. induction 1 as [|[[[h p] e] t] l W F IH]; [reflexivity|]. unfold with_dir in *. cbn [filter snd].
  destruct W as (_ & _ & _ & ->). rewrite neq_eqb by exact N. exact IH.
Qed.
Lemma mtopic_rt d x : wf_mtopic d x -> mtopic_of (upd_l d_topic (map defaults (t_topic t_mlayer)) (pb_mtopic x)) = x.
Proof.
  destruct x as [[[h p] e] t]. intros (A & B & C & D). unfold mtopic_of, pb_mtopic.
  destruct (topic_rt pb_mlayer t_mlayer mlayer_of mon_layer mlayer_rt h p e t B C) as (-> & -> & -> & ->). reflexivity.
Qed.
Lemma mtopic_compat d x : wf_mtopic d x -> compat_l d_topic (map defaults (t_topic t_mlayer)) (pb_mtopic x).
Proof.
  destruct x as [[[h p] e] t]. intros (A & B & C & D). apply topic_compat; [exact mlayer_compat|assumption|assumption].
Qed.
Lemma mon_compat m : wf_mon m -> compat_l d_mon (map defaults t_mon) (pb_mon m).
Proof.
  intros (A & B & C & D & E). unfold d_mon, t_mon, pb_mon. cbn [map].
  change (defaults VNull) with VNull. change (defaults (VMsgs t_process [])) with (VMsgs t_process []).
  change (defaults (VMsgs t_service [])) with (VMsgs t_service []). change (defaults (VMsgs t_client [])) with (VMsgs t_client []).
  change (defaults (VMsgs (t_topic t_mlayer) [])) with (VMsgs (t_topic t_mlayer) []).
  rewrite !compat_cons, !compat_msgs. split; [exact Logic.I|]. split; [|split; [|split; [|split; [|exact Logic.I]]]].
  - eapply forall_map; [|exact A]. intros [[h p] x] [W1 W2]. now apply process_compat.
  - eapply forall_map; [|exact D]. intros [[[h p] e] x] [W1 W2]. now apply service_compat.
  - apply Forall_app. split; (eapply forall_map; [apply mtopic_compat|eassumption]).
  - eapply forall_map; [|exact E]. intros [[[h p] e] x] [W1 W2]. now apply client_compat.
Qed.
Lemma mon_ext m bs : bs <> [] -> wf_mon m -> ext_msg d_mon d_mon (pb_mon m) bs -> (len bs < 2 ^ 32)%Z -> de_mon bs = Ok m.
Proof.
  intros N W X S. unfold de_mon. erewrite deserialize_ext; [|exact N|exact X|now apply mon_compat|reflexivity|exact S].
  f_equal. destruct W as (A & B & C & D & E). unfold mon_of, d_mon, t_mon, pb_mon. cbn [map].
  change (defaults VNull) with VNull. change (defaults (VMsgs t_process [])) with (VMsgs t_process []).
  change (defaults (VMsgs t_service [])) with (VMsgs t_service []). change (defaults (VMsgs t_client [])) with (VMsgs t_client []).
  change (defaults (VMsgs (t_topic t_mlayer) [])) with (VMsgs (t_topic t_mlayer) []).
  rewrite !upd_cons, !upd_msgs, upd_nil. cbn [fms nth app].
  destruct m as [ps pu su se cl]. cbn [mn_processes mn_publisher mn_subscriber mn_server mn_clients] in *.
  assert (Ep : map (fun y => (fs 1 y, fi 2 y, process_of y)) (map (upd_l d_process (map defaults t_process))
    (map (fun y => let '(h, p, pr) := y in pb_process h p pr) ps)) = ps).
  { eapply map_rt2; [|exact A]. intros [[h p] x] _. destruct (process_rt h p x) as (-> & -> & ->). reflexivity. }
  assert (Es : map (fun y => (fs 1 y, fi 4 y, fs 8 y, service_of y)) (map (upd_l d_service (map defaults t_service))
    (map (fun y => let '(h, p, e, s) := y in pb_service h p e s) se)) = se).
  { eapply map_rt2; [|exact D]. intros [[[h p] e] x] _. destruct (service_rt h p e x) as (-> & -> & -> & ->). reflexivity. }
  assert (Ec : map (fun y => (fs 1 y, fi 4 y, fs 6 y, client_of y)) (map (upd_l d_client (map defaults t_client))
    (map (fun y => let '(h, p, e, c) := y in pb_client h p e c) cl)) = cl).
  { eapply map_rt2; [|exact E]. intros [[[h p] e] x] _. destruct (client_rt h p e x) as (-> & -> & -> & ->). reflexivity. }
  assert (Et : map mtopic_of (map (upd_l d_topic (map defaults (t_topic t_mlayer))) (map pb_mtopic pu ++ map pb_mtopic su)) = pu ++ su).
  { rewrite <- map_app. eapply (map_rt2 _ _ _ (fun x => exists d, wf_mtopic d x)); [intros x [d W]; exact (mtopic_rt d x W)|].
    apply Forall_app. split; (eapply Forall_impl; [|eassumption]); intros; eexists; eassumption. }
  rewrite Ep, Es, Ec, Et, !with_dir_app. rewrite (with_dir_all _ _ B), (with_dir_all _ _ C).
  assert (Ne : str "publisher" <> str "subscriber") by discriminate.
  rewrite (with_dir_none _ _ su (fun e => Ne (eq_sym e)) C), (with_dir_none _ _ pu Ne B).
  now rewrite app_nil_r.
Qed.

(** ** What the functions write decodes *)
Lemma request_rt r : wf_request r -> (len (ser_request r) < 2 ^ 32)%Z -> de_request (ser_request r) = Ok r.
Proof.
  intros W S. apply request_ext; [exact W| |exact S]. eapply pb_encode_ext; [apply request_compat, W|reflexivity|].
  fold (pb_request r). unfold ser_request in S. fold (pb_request r) in S. lia.
Qed.
Lemma response_rt r : wf_response r -> (len (ser_response r) < 2 ^ 32)%Z -> de_response (ser_response r) = Ok r.
Proof.
  intros W S. apply response_ext; [exact W| |exact S]. eapply pb_encode_ext; [apply response_compat, W|reflexivity|].
  unfold ser_response in S. fold (pb_response r) in S. lia.
Qed.
Lemma payload_enc p : wf_psample p -> (len (ser_payload p) < 2 ^ 32)%Z -> ext_msg d_sample d_sample (pb_psample p) (ser_payload p).
Proof. intros W S. eapply pb_encode_ext; [apply (psample_compat psample0), W|reflexivity|]. unfold ser_payload in S. lia. Qed.
Lemma payload_rt p : wf_psample p -> (len (ser_payload p) < 2 ^ 32)%Z -> de_payload (ser_payload p) = Ok p.
Proof. intros W S. apply payload_ext; [exact W|now apply payload_enc|exact S]. Qed.
Lemma payload_into t p : wf_psample p -> (len (ser_payload p) < 2 ^ 32)%Z ->
  de_payload_into t (ser_payload p) =
  Ok (PSample (ps_cmd p) (keep (ps_hname t) (ps_hname p)) (keep (ps_tid t) (ps_tid p)) (keep (ps_tname t) (ps_tname p))
        (ps_id p) (ps_clock p) (ps_time p) (ps_hash p) (ps_size p) (keep (ps_payload t) (ps_payload p)) (ps_padding p)).
Proof. intros W S. apply payload_into_ext; [exact W|now apply payload_enc|exact S]. Qed.
Lemma sample_round s : wf_sample s -> (len (ser_sample s) < 2 ^ 32)%Z -> de_sample (ser_sample s) = Ok (arrives s).
Proof.
  intros W S. apply sample_ext; [exact W| |exact S]. eapply pb_encode_ext; [apply sample_compat, W|reflexivity|]. unfold ser_sample in S. lia.
Qed.
Lemma samples_round l : l <> [] -> Forall wf_sample l -> (len (ser_samples l) < 2 ^ 32)%Z -> de_samples (ser_samples l) = Ok (map arrives l).
Proof.
  intros N W S. apply samples_ext; [exact N|exact W| |exact S]. eapply pb_encode_ext; [apply samples_compat, W|reflexivity|].
  unfold ser_samples in S. fold (pb_samples l) in S. lia.
Qed.
Lemma log_round l : ser_log l <> [] -> wf_log l -> (len (ser_log l) < 2 ^ 32)%Z -> de_log (ser_log l) = Ok l.
Proof.
  intros N W S. apply log_ext; [exact N|exact W| |exact S]. eapply pb_encode_ext; [apply log_compat, W|reflexivity|]. unfold ser_log in S. lia.
Qed.
Lemma logs_round l : l <> [] -> Forall wf_log l -> (len (ser_logs l) < 2 ^ 32)%Z -> de_logs (ser_logs l) = Ok l.
Proof.
  intros N W S. apply logs_ext; [exact N|exact W| |exact S]. eapply pb_encode_ext; [apply logs_compat, W|reflexivity|].
  unfold ser_logs in S. fold (pb_logs l) in S. lia.
Qed.
Lemma mon_round m : ser_mon m <> [] -> wf_mon m -> (len (ser_mon m) < 2 ^ 32)%Z -> de_mon (ser_mon m) = Ok m.
Proof.
  intros N W S. apply mon_ext; [exact N|exact W| |exact S]. eapply pb_encode_ext; [apply mon_compat, W|reflexivity|]. unfold ser_mon in S. lia.
Qed.

(** ** Any bytes *)
Lemma deserialize_safe {A} d t (f : list fval -> A) bs : deserialize d t f bs <> Fault.
Proof.
  unfold deserialize. destruct bs as [|b bs]; [discriminate|]. pose proof (pb_decode_safe d t (b :: bs)).
  destruct (pb_decode d t (b :: bs)); cbn; [discriminate|discriminate|congruence].
Qed.

(** ** Emptiness *)
Lemma enc_varint_nonempty v : enc_varint v <> [].
Proof.
  unfold enc_varint. destruct (v <=? 127)%Z; [discriminate|]. unfold enc_varint_32.
  destruct (enc_low 4 _ _ _) as [bs b]. destruct bs; [|discriminate]. cbn [app].
  destruct (Z.eqb _ 0); [discriminate|]. cbn [enc_high]. destruct (Z.eqb _ 0); discriminate.
Qed.
Lemma enc_num_empty tag z : (if Z.eqb z 0 then [] else enc_tag wt_varint tag ++ enc_varint (u64 z)) = [] -> z = 0%Z.
Proof.
  destruct (Z.eqb_spec z 0); [trivial|]. intros E. apply app_eq_nil in E as [E _]. now apply enc_varint_nonempty in E.
Qed.
Lemma enc_cb_empty tag s : enc_field tag FCallStr (cb s) = [] -> s = [].
Proof. destruct s; [trivial|]. cbn [enc_field cb]. intros E. apply app_eq_nil in E as [E _]. now apply enc_varint_nonempty in E. Qed.
Lemma enc_list_empty {A} tag d e (f : A -> list fval) l : enc_field tag (FCallMsg d) (VMsgs e (map f l)) = [] -> l = [].
Proof.
  destruct l as [|x l]; [trivial|]. cbn [map]. rewrite enc_field_msgs. cbn [flat_map]. intros E. apply app_eq_nil in E as [E _].
  apply app_eq_nil in E as [E _]. now apply enc_varint_nonempty in E.
Qed.
Lemma ser_log_empty l : ser_log l = [] -> l = LogMsg 0 [] 0 [] [] 0 [].
Proof.
  unfold ser_log, d_log, pb_log. cbn [enc_msg]. intros E. destruct l as [a b c d e f g].
  cbn [lg_time lg_hname lg_pid lg_pname lg_uname lg_level lg_content] in E.
  apply app_eq_nil in E as [E1 E]. apply app_eq_nil in E as [E2 E]. apply app_eq_nil in E as [E3 E]. apply app_eq_nil in E as [E4 E].
  apply app_eq_nil in E as [E5 E]. apply app_eq_nil in E as [E6 E]. apply app_eq_nil in E as [E7 _].
  apply enc_num_empty in E1, E3, E6. apply enc_cb_empty in E2, E4, E5, E7. now subst.
Qed.
Lemma ser_logs_empty l : ser_logs l = [] -> l = [].
Proof. unfold ser_logs, d_logs, pb_logs. cbn [enc_msg]. rewrite app_nil_r. apply enc_list_empty. Qed.
Lemma ser_mon_empty m : ser_mon m = [] -> m = Mon [] [] [] [] [].
Proof.
  unfold ser_mon, d_mon, pb_mon. cbn [enc_msg]. intros E. destruct m as [a b c d e].
  cbn [mn_processes mn_publisher mn_subscriber mn_server mn_clients] in E.
  apply app_eq_nil in E as [_ E]. apply app_eq_nil in E as [E1 E]. apply app_eq_nil in E as [E2 E]. apply app_eq_nil in E as [E3 E].
  apply app_eq_nil in E as [E4 _]. rewrite <- map_app in E3. apply enc_list_empty in E1, E2, E3, E4. apply app_eq_nil in E3 as [-> ->]. now subst.
Qed.
Lemma mon_round' m : m <> Mon [] [] [] [] [] -> wf_mon m -> (len (ser_mon m) < 2 ^ 32)%Z -> de_mon (ser_mon m) = Ok m.
Proof. intros N. apply mon_round. intros E. now apply ser_mon_empty in E. Qed.
Lemma log_round' l : l <> LogMsg 0 [] 0 [] [] 0 [] -> wf_log l -> (len (ser_log l) < 2 ^ 32)%Z -> de_log (ser_log l) = Ok l.
Proof. intros N. apply log_round. intros E. now apply ser_log_empty in E. Qed.

(** ** What does not arrive *)
Lemma ser_payload_inj p q : wf_psample p -> wf_psample q -> (len (ser_payload p) < 2 ^ 32)%Z -> ser_payload p = ser_payload q -> p = q.
Proof.
  intros Wp Wq S E. pose proof (payload_rt p Wp S) as A. rewrite E in A, S. rewrite (payload_rt q Wq S) in A. now injection A.
Qed.
Lemma arrives_os s : sm_osname (arrives s) = [].
Proof.
  unfold arrives. destruct (is_prc_cmd _); [reflexivity|]. destruct (is_srv_cmd _); [reflexivity|]. destruct (is_cli_cmd _); [reflexivity|].
  destruct (_ || _)%bool; reflexivity.
Qed.
Lemma osname_lost s : wf_sample s -> (len (ser_sample s) < 2 ^ 32)%Z -> sm_osname s <> [] -> de_sample (ser_sample s) <> Ok s.
Proof.
  intros W S N E. rewrite (sample_round s W S) in E. injection E as E. apply N. rewrite <- E. apply arrives_os.
Qed.
Lemma process_entity_lost s : wf_sample s -> (len (ser_sample s) < 2 ^ 32)%Z -> is_prc_cmd (sm_cmd s) = true -> sm_entity s <> [] ->
  de_sample (ser_sample s) <> Ok s.
Proof.
  intros W S P N E. rewrite (sample_round s W S) in E. injection E as E. apply N. rewrite <- E. unfold arrives. now rewrite P.
Qed.
Lemma arrives_idem s : arrives (arrives s) = arrives s.
Proof. unfold arrives. destruct (sm_cmd s) eqn:E; cbn; rewrite ?E; reflexivity. Qed.
Lemma samples_empty : de_samples (ser_samples []) = Fail.
Proof. reflexivity. Qed.
Lemma payload_stale t p : wf_psample p -> (len (ser_payload p) < 2 ^ 32)%Z -> ps_payload p = [] -> ps_payload t <> [] ->
  exists q, de_payload_into t (ser_payload p) = Ok q /\ ps_payload q = ps_payload t /\ q <> p.
Proof.
  intros W S E N. rewrite (payload_into t p W S). eexists. split; [reflexivity|]. split; [cbn; now rewrite E|].
  intros X. apply (f_equal ps_payload) in X. cbn in X. rewrite E in X. cbn in X. congruence.
Qed.

(** ** Too long *)
Lemma varint32_too_long v rest left : (2 ^ 32 <= v < 2 ^ 34)%Z -> (len (enc_varint v) <= left)%Z ->
  dec_varint32 (Stream (enc_varint v ++ rest) left) = Fail.
Proof.
  intros Hv. pose proof (enc_varint_ok v ltac:(lia)) as V. revert V. generalize (enc_varint v) as bs. intros bs V L.
  inversion V as [b Hb|b0 v1 bs1 H0 P1 V1]; subst; [lia|].
  inversion V1 as [b Hb|b1 v2 bs2 H1 P2 V2]; subst; [lia|].
  inversion V2 as [b Hb|b2 v3 bs3 H2 P3 V3]; subst; [lia|].
  inversion V3 as [b Hb|b3 v4 bs4 H3 P4 V4]; subst; [lia|].
  inversion V4 as [b4 H4|b4 v5 bs5 H4 P5 V5]; subst; [|lia].
  rewrite !len_cons in L. change (len []) with 0%Z in L.
  assert (R : forall b r left, (0 <= b < 128)%Z -> (0 < left)%Z -> rd1 (Stream ((b + 128)%Z :: r) left) = Ok ((b + 128)%Z, Stream r (left - 1))).
  { intros b r l Hb Hl. apply rd1_cons; lia. }
  assert (Co : forall b, (0 <= b)%Z -> cont (b + 128) = true) by (intros; unfold cont; apply Z.leb_le; lia).
  assert (M : forall b, (0 <= b < 128)%Z -> ((b + 128) mod 128 = b)%Z).
  { intros b Hb. replace (b + 128)%Z with (b + 1 * 128)%Z by lia. rewrite Z.mod_add by lia. apply Z.mod_small. lia. }
  unfold dec_varint32. cbn [app]. rewrite R by lia. cbn [bind]. rewrite Co, M by lia.
  remember 10%nat as n eqn:En. do 4 (destruct n as [|n]; [discriminate|]).
  change (varint32_go (S (S (S (S n)))) 7 b0) with (varint32_go (S (S (S (S n)))) 7 b0).
  cbn [varint32_go]. rewrite R by lia. cbn [bind].
  change (32 <=? 7)%Z with false. change (Z.eqb 7 28) with false. cbv iota. cbn [bind]. rewrite Co by lia.
  rewrite R by lia. cbn [bind]. change (32 <=? 7 + 7)%Z with false. change (Z.eqb (7 + 7) 28) with false. cbv iota. cbn [bind]. rewrite Co by lia.
  rewrite R by lia. cbn [bind]. change (32 <=? 7 + 7 + 7)%Z with false. change (Z.eqb (7 + 7 + 7) 28) with false. cbv iota. cbn [bind]. rewrite Co by lia.
  rewrite rd1_cons by lia. cbn [bind]. change (32 <=? 7 + 7 + 7 + 7)%Z with false. change (Z.eqb (7 + 7 + 7 + 7) 28) with true. cbv iota.
  rewrite (Z.mod_small v4 128) by lia.
  assert (B : (16 <= v4 < 64)%Z) by lia.
  assert (v4 / 16 <> 0)%Z by (intros E; apply Z.div_small_iff in E; lia).
  assert (v4 / 8 < 15)%Z by (apply Z.div_lt_upper_bound; lia).
  destruct (Z.eqb_spec (v4 / 16) 0); [tauto|]. destruct (Z.eqb_spec (v4 / 8) 15); [lia|]. reflexivity.
Qed.
Lemma decs_fail_field d m tag ty h a rest L v :
  (0 < tag < 2 ^ 29)%Z -> (0 <= L)%Z -> (exists i, find_field tag d m = Some (i, FMsg ty, VMsg h a)) -> (2 ^ 32 <= v < 2 ^ 34)%Z ->
  (len (enc_varint v) <= L)%Z ->
  decs d m (Stream (enc_tag wt_string tag ++ enc_varint v ++ rest) (len (enc_tag wt_string tag) + L)) Fail.
Proof.
  intros Ht HL [i F] Hv Lv. exists 1%nat. intros [|f] Lf; [lia|]. cbn [dec_inner s_left].
  assert (1 <= len (enc_tag wt_string tag))%Z by (apply varint_pos; unfold wt_string; lia).
  destruct (Z.eqb_spec (len (enc_tag wt_string tag) + L) 0); [lia|].
  rewrite dec_tag_ok by (try assumption; unfold wt_string; lia). cbn [bind].
  destruct (Z.eqb_spec tag 0); [lia|]. rewrite F. cbn [dec_field]. change (Z.eqb wt_string wt_string) with true. cbn [negb].
  unfold substream. rewrite varint32_too_long by lia. reflexivity.
Qed.
Lemma payload_too_long p : wf_psample p -> (2 ^ 32 <= len (ps_payload p))%Z -> (len (ser_payload p) < 2 ^ 34)%Z ->
  (len (ser_payload p) - len (ps_payload p) < 2 ^ 31)%Z ->
  de_payload (ser_payload p) = Fail.
Proof.
  intros W Lp Ls Lt. pose proof (pb_decode_safe d_sample (t_psample psample0) (ser_payload p)) as N.
  unfold de_payload, de_payload_into, deserialize.
  set (tv := pl_topic (cb (ps_hname p)) (cb (ps_tid p)) (cb (ps_tname p))) in *.
  set (cv := [VInt (ps_id p); VInt (ps_clock p); VInt (ps_time p); cb (ps_payload p); VInt (ps_size p); VInt (ps_hash p)]) in *.
  assert (Lc : (len (ps_payload p) <= len (enc_msg d_content cv))%Z).
  { unfold d_content, cv. cbn [enc_msg]. destruct (ps_payload p) as [|x l]; [cbn in Lp; lia|]. cbn [cb]. rewrite !len_app.
    cbn [enc_field]. rewrite len_app. pose proof (enc_string_len (x :: l)).
    repeat match goal with |- context [len ?y] => lazymatch goal with H : (0 <= len y)%Z |- _ => fail | _ => pose proof (len_nonneg y) end end. lia. }
  assert (E : ser_payload p = enc_field 1 FU32 (VInt (cmd_code (ps_cmd p))) ++ (enc_tag wt_string 5 ++ enc_string (enc_msg d_topic tv)) ++
    enc_tag wt_string 6 ++ enc_varint (len (enc_msg d_content cv)) ++ enc_msg d_content cv ++ enc_field 8 FCallStr (VStr (ps_padding p))).
  { unfold ser_payload, d_sample, pb_psample, no_msg. fold tv cv. cbn [enc_msg]. rewrite !enc_field_msg.
    cbn [enc_field]. cbn [app]. rewrite app_nil_r. rewrite <- !app_assoc. unfold enc_string at 2. rewrite <- !app_assoc. reflexivity. }
  set (bs := ser_payload p) in *.
  assert (NE : bs <> []). { rewrite E. intros H. apply app_eq_nil in H as [_ H]. apply app_eq_nil in H as [H _].
    apply app_eq_nil in H as [H _]. now apply enc_varint_nonempty in H. }
  assert (D : decs d_sample (map defaults (t_psample psample0)) (Stream bs (len bs)) Fail).
  { rewrite E. rewrite E in Ls, Lt. pose proof (cmd_u32 _ (proj1 W)) as U.
    set (f1 := enc_field 1 FU32 (VInt (cmd_code (ps_cmd p)))) in *. set (f5 := enc_tag wt_string 5 ++ enc_string (enc_msg d_topic tv)) in *.
    set (t6 := enc_tag wt_string 6) in *. set (l6 := enc_varint (len (enc_msg d_content cv))) in *.
    set (f8 := enc_field 8 FCallStr (VStr (ps_padding p))) in *.
    rewrite !len_app in *. pose proof (len_nonneg f1). pose proof (len_nonneg f5). pose proof (len_nonneg t6).
    pose proof (len_nonneg l6). pose proof (len_nonneg f8).
    eapply (all_fields_ok FU32 (VInt (cmd_code (ps_cmd p))) (VInt 0) 1%Z);
      [now apply compat_u32|reflexivity|lia|reflexivity|fold f1; lia|lia|].
    eapply (all_fields_ok (FMsg d_topic) (VMsg true tv) (VMsg false (map defaults (pl_topic (VStr []) (VStr []) (VStr [])))) 5%Z);
      [rewrite compat_msg; apply pl_topic_compat|reflexivity|lia|reflexivity|rewrite enc_field_msg; fold f5; lia|lia|].
    eapply decs_fail_field; [lia|lia|eexists; reflexivity|lia|fold l6; lia]. }
  unfold pb_decode in *.
  destruct bs as [|b bs'] eqn:Eb; [now elim NE|].
  rewrite (decs_fuel _ _ _ _ (Datatypes.S (length (b :: bs'))) D); [reflexivity|].
  intros X. rewrite X in N. now apply N.
Qed.
Definition long_payload : psample := PSample bct_none [] [] [] 0 0 0 0 0 (repeat 0%Z (Z.to_nat (2 ^ 32))) [].
Lemma long_payload_len : len (repeat 0%Z (Z.to_nat (2 ^ 32))) = (2 ^ 32)%Z.
Proof. unfold len. rewrite repeat_length. apply Z2Nat.id. lia. Qed.
Lemma long_payload_ok : wf_psample long_payload /\ (2 ^ 32 <= len (ps_payload long_payload))%Z /\ (len (ser_payload long_payload) < 2 ^ 34)%Z /\
  (len (ser_payload long_payload) - len (ps_payload long_payload) < 2 ^ 31)%Z.
Proof.
  pose proof long_payload_len as L. unfold long_payload. revert L. generalize (repeat 0%Z (Z.to_nat (2 ^ 32))) as l. intros l L.
  split; [|cbn [ps_payload]; rewrite L].
  { unfold wf_psample, i64, i32; cbn [ps_cmd ps_id ps_clock ps_time ps_hash ps_size]. split; [discriminate|lia]. }
  assert (E : len (ser_payload (PSample bct_none [] [] [] 0 0 0 0 0 l [])) = (2 ^ 32 + 16)%Z).
  { unfold ser_payload, pb_psample, d_sample, no_msg. cbn [ps_cmd ps_hname ps_tid ps_tname ps_id ps_clock ps_time ps_hash ps_size ps_payload ps_padding].
    cbn [enc_msg]. rewrite !enc_field_msg. rewrite !len_app.
    assert (C : len (enc_msg d_content [VInt 0; VInt 0; VInt 0; cb l; VInt 0; VInt 0]) = (2 ^ 32 + 6)%Z).
    { destruct l as [|x l]; [discriminate|]. cbn [cb]. unfold d_content. cbn [enc_msg enc_field]. change (Z.eqb 0 0) with true. cbv iota. cbn [app].
      rewrite !app_nil_r. unfold enc_string. rewrite !len_app, L. reflexivity. }
    unfold enc_string at 2. rewrite len_app, C. reflexivity. }
  rewrite E. lia.
Qed.
