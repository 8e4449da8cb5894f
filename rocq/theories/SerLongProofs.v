(** Requests and responses from 4 GiB on. *)
From Verif Require Import Base Sample PbModel PbSpec PbProofs PbRound PbExt SerModel SerSpec SerProofs SerWire.
From Coq Require Import Lia ZArith.

Lemma decs_fail_call d m tag w rest L v :
  (0 < tag < 2 ^ 29)%Z -> (0 <= L)%Z -> (exists i, find_field tag d m = Some (i, FCallStr, w)) -> (2 ^ 32 <= v < 2 ^ 34)%Z ->
  (len (enc_varint v) <= L)%Z ->
  decs d m (Stream (enc_tag wt_string tag ++ enc_varint v ++ rest) (len (enc_tag wt_string tag) + L)) Fail.
Proof.
  intros Ht HL [i F] Hv Lv. exists 1%nat. intros [|f] Lf; [lia|]. cbn [dec_inner s_left].
  assert (1 <= len (enc_tag wt_string tag))%Z by (apply varint_pos; unfold wt_string; lia).
  destruct (Z.eqb_spec (len (enc_tag wt_string tag) + L) 0); [lia|].
  rewrite dec_tag_ok by (try assumption; unfold wt_string; lia). cbn [bind].
  destruct (Z.eqb_spec tag 0); [lia|]. rewrite F. cbn [dec_field]. change (Z.eqb wt_string wt_string) with true. cbv iota.
  unfold substream. rewrite varint32_too_long by lia. reflexivity.
Qed.
(** A header and a second field that is too long. *)
Lemma second_too_long d tmpl h p rest bs :
  (forall w, exists i, find_field 2 d (set_nth 0 w (map defaults (VMsg false t_header :: tmpl))) = Some (i, FCallStr, VStr [])) ->
  (find_field 1 d (map defaults (VMsg false t_header :: tmpl)) = Some (0%nat, FMsg d_header, VMsg false (map defaults t_header))) ->
  wf_header h -> (2 ^ 32 <= len p)%Z -> (len bs < 2 ^ 34)%Z -> (len bs - len p < 2 ^ 31)%Z ->
  bs = enc_field 1 (FMsg d_header) (VMsg true (pb_header h)) ++ enc_tag wt_string 2 ++ enc_varint (len p) ++ p ++ rest ->
  pb_decode d (VMsg false t_header :: tmpl) bs = Fail.
Proof.
  intros F2 F1 W Lp Ls Lt E. pose proof (pb_decode_safe d (VMsg false t_header :: tmpl) bs) as N.
  assert (NE : bs <> []). { rewrite E. intros H. apply app_eq_nil in H as [_ H]. apply app_eq_nil in H as [H _]. now apply enc_varint_nonempty in H. }
  assert (D : decs d (map defaults (VMsg false t_header :: tmpl)) (Stream bs (len bs)) Fail).
  { rewrite E. rewrite E in Ls, Lt. set (f1 := enc_field 1 (FMsg d_header) (VMsg true (pb_header h))) in *.
    rewrite !len_app in *. pose proof (len_nonneg f1). pose proof (len_nonneg (enc_tag wt_string 2)). pose proof (len_nonneg (enc_varint (len p))). pose proof (len_nonneg rest).
    eapply (all_fields_ok (FMsg d_header) (VMsg true (pb_header h)) (VMsg false (map defaults t_header)) 1%Z);
      [rewrite compat_msg; apply header_compat, W|reflexivity|lia|exact F1|fold f1; lia|lia|].
    eapply decs_fail_call; [lia|lia|apply F2|lia|lia]. }
  unfold pb_decode in *. destruct bs as [|b bs'] eqn:Eb; [now elim NE|].
  rewrite (decs_fuel _ _ _ _ (Datatypes.S (length (b :: bs'))) D); [reflexivity|].
  intros X. rewrite X in N. now apply N.
Qed.
Lemma request_too_long r : wf_request r -> (2 ^ 32 <= len (rq_request r))%Z -> (len (ser_request r) < 2 ^ 34)%Z ->
  (len (ser_request r) - len (rq_request r) < 2 ^ 31)%Z -> de_request (ser_request r) = Fail.
Proof.
  intros W Lp Ls Lt. unfold de_request, deserialize. erewrite second_too_long; [reflexivity|..]; try exact W; try exact Lp; try exact Ls; try exact Lt.
  - intros w. eexists. reflexivity.
  - reflexivity.
  - unfold ser_request, d_request, pb_request. cbn [enc_msg]. destruct (rq_request r) as [|x l]; [cbn in Lp; lia|]. cbn [cb enc_field app].
    unfold enc_string. rewrite <- !app_assoc. reflexivity.
Qed.
Lemma response_too_long r : wf_response r -> (2 ^ 32 <= len (rp_response r))%Z -> (len (ser_response r) < 2 ^ 34)%Z ->
  (len (ser_response r) - len (rp_response r) < 2 ^ 31)%Z -> de_response (ser_response r) = Fail.
Proof.
  intros [W _] Lp Ls Lt. unfold de_response, deserialize. erewrite second_too_long; [reflexivity|..]; try exact W; try exact Lp; try exact Ls; try exact Lt.
  - intros w. eexists. reflexivity.
  - reflexivity.
  - unfold ser_response, d_response, pb_response. cbn [enc_msg]. destruct (rp_response r) as [|x l]; [cbn in Lp; lia|]. cbn [cb enc_field app].
    unfold enc_string. rewrite <- !app_assoc. reflexivity.
Qed.

Definition long_bytes : list Z := repeat 0%Z (Z.to_nat (2 ^ 32)).
Definition long_request : request := Request (Header [] [] [] [] [] 0 0) long_bytes.
Definition long_response : response := Response (Header [] [] [] [] [] 0 0) long_bytes 0.
Lemma long_request_ok : wf_request long_request /\ (2 ^ 32 <= len (rq_request long_request))%Z /\ (len (ser_request long_request) < 2 ^ 34)%Z /\
  (len (ser_request long_request) - len (rq_request long_request) < 2 ^ 31)%Z.
Proof.
  pose proof long_payload_len as L. unfold long_request, long_bytes. revert L. generalize (repeat 0%Z (Z.to_nat (2 ^ 32))) as l. intros l L.
  split; [repeat split; vm_compute; congruence|]. cbn [rq_request]. rewrite L.
  assert (E : len (ser_request (Request (Header [] [] [] [] [] 0 0) l)) = (2 ^ 32 + 8)%Z); [|rewrite E; lia].
  unfold ser_request, pb_request, d_request. cbn [rq_header rq_request]. destruct l as [|x l]; [discriminate|]. cbn [cb enc_msg].
  rewrite enc_field_msg. cbn [enc_field]. unfold enc_string at 2. rewrite !len_app, L. reflexivity.
Qed.
Lemma long_response_ok : wf_response long_response /\ (2 ^ 32 <= len (rp_response long_response))%Z /\ (len (ser_response long_response) < 2 ^ 34)%Z /\
  (len (ser_response long_response) - len (rp_response long_response) < 2 ^ 31)%Z.
Proof.
  pose proof long_payload_len as L. unfold long_response, long_bytes. revert L. generalize (repeat 0%Z (Z.to_nat (2 ^ 32))) as l. intros l L.
  split; [repeat split; vm_compute; congruence|]. cbn [rp_response]. rewrite L.
  assert (E : len (ser_response (Response (Header [] [] [] [] [] 0 0) l 0)) = (2 ^ 32 + 8)%Z); [|rewrite E; lia].
  unfold ser_response, pb_response, d_response. cbn [rp_header rp_response rp_ret]. destruct l as [|x l]; [discriminate|]. cbn [cb enc_msg].
  rewrite enc_field_msg. cbn [enc_field]. unfold enc_string at 2. rewrite !len_app, L. reflexivity.
Qed.
