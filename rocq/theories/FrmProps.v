(** Properties of the byte protocols of the services (C25 - C28). *)
From Verif Require Import Base FrmModel FrmSpec FrmProofs.

(** ** C25 *)
(** A stream of messages is read back exactly, however it is cut into segments. *)
Theorem c25_messages_survive_segmentation : forall ms segs, all_ok ms -> concat segs = concat (map frame ms) ->
  feed_segments reader0 segs = (reader0, ms).
Proof. exact all_lemma. Qed.
Print Assumptions c25_messages_survive_segmentation.

(** After any part of the stream exactly the complete messages have been handed over. *)
Theorem c25_incomplete_message_delivers_nothing : forall ms segs q, all_ok ms -> concat (map frame ms) = concat segs ++ q ->
  exists ms1 ms2, ms = ms1 ++ ms2 /\ snd (feed_segments reader0 segs) = ms1 /\
    (length q <= length (concat (map frame ms2)) /\ (ms2 <> [] -> length (concat (map frame (tl ms2))) < length q)).
Proof. exact part_lemma. Qed.
Print Assumptions c25_incomplete_message_delivers_nothing.

(** Whatever bytes arrive, only their sequence matters. *)
Theorem c25_segmentation_is_irrelevant : forall segs r, feed_segments r segs = feed r (concat segs).
Proof. exact segments_lemma. Qed.
Print Assumptions c25_segmentation_is_irrelevant.

(** Messages of a later protocol with longer headers are read as well; the unknown part of the
    header is skipped. *)
Theorem c25_longer_headers_are_skipped : forall l segs,
  Forall (fun em => ext_ok (fst em) /\ msg_ok (snd em) /\ small (snd em)) l ->
  concat segs = concat (map (fun em => frame_ext (fst em) (snd em)) l) -> feed_segments reader0 segs = (reader0, map snd l).
Proof. exact ext_lemma. Qed.
Print Assumptions c25_longer_headers_are_skipped.

Example c25_example :
  let ms := [FMsg 1 mt_service_request [7; 8; 9]; FMsg 1 mt_service_response []; FMsg 1 mt_service_request [5]]%Z in
  let bytes := concat (map frame ms) in
  all_ok ms /\ feed_segments reader0 [firstn 3 bytes; []; skipn 3 (firstn 37 bytes); skipn 37 bytes] = (reader0, ms)
  /\ snd (feed_segments reader0 [firstn 3 bytes; skipn 3 (firstn 18 bytes)]) = [].
Proof.
  split; [|split; vm_compute; reflexivity].
  repeat constructor; cbn; try lia; unfold is_byte, small; cbn; try lia; discriminate.
Qed.
Example c25_example_longer :
  let m := FMsg 1 mt_service_request [7; 8; 9]%Z in
  feed_segments reader0 [frame_ext [42; 43]%Z m; frame m] = (reader0, [m; m]).
Proof. vm_compute. reflexivity. Qed.

(** ** C26 *)
(** Below 4 GiB the payload arrives complete and the following messages are not disturbed; this
    is c25 for a single large message followed by others. *)
Theorem c26_payloads_below_4gib_partial : forall m ms, msg_ok m -> small m -> all_ok ms ->
  snd (feed_segments reader0 [frame m; concat (map frame ms)]) = m :: ms.
Proof.
  exact (fun m ms M S A => f_equal snd (all_lemma (m :: ms) [frame m; concat (map frame ms)] (Forall_cons m (conj M S) A)
    (f_equal (app (frame m)) (app_nil_r (concat (map frame ms)))))).
Qed.
Print Assumptions c26_payloads_below_4gib_partial.

(** From 4 GiB on the first message handed over is always a shorter one. *)
Theorem c26_larger_payloads_are_truncated : forall m, msg_ok m -> (2 ^ 32 <= Z.of_nat (length (fm_pay m)))%Z ->
  exists m' ms, snd (feed_segments reader0 [frame m]) = m' :: ms /\ length (fm_pay m') < length (fm_pay m).
Proof. exact large_lemma. Qed.
Print Assumptions c26_larger_payloads_are_truncated.

Theorem c26_any_size_refuted : ~ (forall m, msg_ok m -> snd (feed_segments reader0 [frame m]) = [m]).
Proof. exact large_refuted. Qed.
Print Assumptions c26_any_size_refuted.

Example c26_example : exists m, msg_ok m /\ (2 ^ 32 <= Z.of_nat (length (fm_pay m)))%Z.
Proof. exact large_exists. Qed.

(** ** C27 *)
(** The legacy server cuts requests wherever the network does. *)
Theorem c27_whole_requests_refuted :
  ~ (forall req ops, req <> [] -> arrived ops = req -> v_calls (v0_run ops v0_init) = [] \/ v_calls (v0_run ops v0_init) = [req]).
Proof. exact v0_refuted. Qed.
Print Assumptions c27_whole_requests_refuted.

(** Every request can be torn at every place (here: the parts fit into one read). *)
Theorem c27_every_request_can_be_torn : forall a b, a <> [] -> b <> [] -> length a <= max_length -> length b <= max_length ->
  exists ops, arrived ops = a ++ b /\ v_calls (v0_run ops v0_init) = [a; b].
Proof. exact v0_torn_lemma. Qed.
Print Assumptions c27_every_request_can_be_torn.

(** A request that is complete before the session starts to read is never torn, whatever its
    size ... *)
Theorem c27_request_arrived_at_once_partial : forall req ops, req <> [] -> forallb (fun op => negb (is_arrive op)) ops = true ->
  v_calls (v0_run (VArrive req :: ops) v0_init) = [] \/ v_calls (v0_run (VArrive req :: ops) v0_init) = [req].
Proof. exact v0_whole_lemma. Qed.
Print Assumptions c27_request_arrived_at_once_partial.

(** ... and is answered after enough reads. *)
Theorem c27_request_is_answered : forall req n, req <> [] -> length req <= n * max_length ->
  v_calls (v0_run (VArrive req :: rounds n) v0_init) = [req].
Proof. exact v0_answered_lemma. Qed.
Print Assumptions c27_request_is_answered.

(** Torn or not, no byte is lost, invented or reordered. *)
Theorem c27_bytes_are_kept : forall ops, exists rest, arrived ops = concat (v_calls (v0_run ops v0_init)) ++ rest.
Proof. exact v0_bytes_lemma. Qed.
Print Assumptions c27_bytes_are_kept.

(** An empty request is never seen by the server. *)
Theorem c27_empty_request_is_never_answered : forall ops, arrived ops = [] -> v_calls (v0_run ops v0_init) = [].
Proof. exact v0_empty_lemma. Qed.
Print Assumptions c27_empty_request_is_never_answered.

(** Responses survive any segmentation. *)
Theorem c27_responses_survive_segmentation : forall pays segs, Forall (fun p => (Z.of_nat (length p) < 2 ^ 32)%Z) pays ->
  concat segs = concat (map frame0 pays) -> snd (feed0_segments segs) = pays.
Proof. exact answers0_lemma. Qed.
Print Assumptions c27_responses_survive_segmentation.

Example c27_example :
  let req := [1; 2; 3; 4; 5]%Z in
  v_calls (v0_run [VArrive req; VRead; VHandle] v0_init) = [req]
  /\ v_calls (v0_run [VArrive [1; 2]%Z; VRead; VArrive [3; 4; 5]%Z; VHandle; VRead; VHandle] v0_init) = [req]
  /\ v_calls (v0_run [VArrive [1; 2]%Z; VRead; VHandle; VArrive [3; 4; 5]%Z; VRead; VHandle] v0_init) = [[1; 2]; [3; 4; 5]]%Z
  /\ snd (feed0_segments [firstn 3 (frame0 req); skipn 3 (frame0 req) ++ frame0 []]) = [req; []].
Proof. vm_compute. auto. Qed.

(** ** C28 *)
(** For every range a client offers: the highest common version, or a refusal exactly if there
    is none. *)
Theorem c28_server_picks_highest_common : forall smin smax cmin cmax, is_byte cmin -> is_byte cmax ->
  match server_choice smin smax (handshake_request cmin cmax) with
  | Some v => common smin smax cmin cmax v /\ forall w, common smin smax cmin cmax w -> (w <= v)%Z
  | None => forall w, ~ common smin smax cmin cmax w
  end.
Proof. exact choice_lemma. Qed.
Print Assumptions c28_server_picks_highest_common.

(** With the versions compiled in, a session is established exactly if the client's range
    contains version 1, and both sides agree on version 1. *)
Theorem c28_session_agreement : forall cmin cmax, is_byte cmin -> is_byte cmax ->
  match server_choice v_min v_max (handshake_request cmin cmax) with
  | Some v => v = 1%Z /\ (cmin <= 1 <= cmax)%Z /\ client_accepts v_min v_max (handshake_response v) = Some v
  | None => ~ (cmin <= 1 <= cmax)%Z
  end.
Proof. exact session_lemma. Qed.
Print Assumptions c28_session_agreement.

(** Anything but a handshake request is refused. *)
Theorem c28_other_messages_are_refused : forall m, fm_type m <> mt_handshake_request -> server_choice v_min v_max m = None.
Proof. exact refuse_lemma. Qed.
Print Assumptions c28_other_messages_are_refused.

Example c28_example : server_choice 1 3 (handshake_request 2 7) = Some 3%Z /\ server_choice 1 1 (handshake_request 2 7) = None
  /\ server_choice 1 1 (handshake_request 7 0) = None.
Proof. vm_compute. auto. Qed.
