(** C122: a connection of the legacy service protocol as a whole. *)
From Verif Require Import Base Sample FrmModel LegModel LegSpec LegProofs.

Theorem c122_one_at_a_time : forall ops s, lreach ops s -> lg_lost s = false -> length (lg_sent s) = length (lg_got s) + if lg_flight s then 1 else 0.
Proof. exact one_at_a_time_lemma. Qed.
Print Assumptions c122_one_at_a_time.
Example c122_one_at_a_time_case : l_view l_two = Some ([[1; 2]]%Z, [[1; 2]]%Z, []) /\ l_none l_two = Some ([[3]]%Z, true).
Proof. split; vm_compute; reflexivity. Qed.

Theorem c122_order : forall ops s, lreach ops s ->
  lprefix (lg_sent s) (asked_for false ops) /\ (lg_lost s = false -> asked_for false ops = lg_sent s ++ lg_wait s).
Proof. exact order_lemma. Qed.
Print Assumptions c122_order.
Example c122_order_case : l_view l_lossy = Some ([[1; 2; 3]; [4]]%Z, [[1; 2; 3]]%Z, [[7]]%Z) /\ asked_for false l_lossy = [[1; 2; 3]; [4]; [5]]%Z.
Proof. split; vm_compute; reflexivity. Qed.

Theorem c122_bytes : forall ops s, lreach ops s -> exists rest, concat (lg_sent s) = concat (v_calls (lg_srv s)) ++ rest.
Proof. exact bytes_lemma. Qed.
Print Assumptions c122_bytes.
Example c122_bytes_case : l_view (l_torn [1] [2; 3] [4; 5] [7] [8; 9])%Z = Some ([[1; 2; 3]; [4; 5]]%Z, [[1]; [2; 3]]%Z, [[7]; [8; 9]]%Z).
Proof. vm_compute; reflexivity. Qed.

Theorem c122_answers : forall ops s k m, lreach ops s -> lfits s -> nth_error (lg_got s) k = Some m ->
  nth_error (lg_resp s) k = Some m /\ exists p, nth_error (v_calls (lg_srv s)) k = Some p.
Proof. exact answers_lemma. Qed.
Print Assumptions c122_answers.
Example c122_answers_case : exists s, lreach (l_call [1; 2; 3] [7])%Z s /\ lfits s /\ nth_error (lg_got s) 0 = Some [7]%Z.
Proof. exact call_ok. Qed.

Theorem c122_whole : forall ops s, lreach ops s -> whole ops leg0 -> lfits s -> lprefix (v_calls (lg_srv s)) (lg_sent s).
Proof. exact whole_lemma. Qed.
Print Assumptions c122_whole.
Example c122_whole_case : exists s, lreach l_two s /\ whole l_two leg0 /\ lfits s /\ v_calls (lg_srv s) = [[1; 2]]%Z.
Proof. exact two_ok. Qed.

Theorem c122_own_answer : forall ops s k m, lreach ops s -> whole ops leg0 -> lfits s -> nth_error (lg_got s) k = Some m ->
  exists req, nth_error (asked_for false ops) k = Some req /\ nth_error (v_calls (lg_srv s)) k = Some req /\ nth_error (lg_resp s) k = Some m.
Proof. exact own_lemma. Qed.
Print Assumptions c122_own_answer.
Example c122_own_answer_case : exists s, lreach l_lossy s /\ whole l_lossy leg0 /\ lfits s /\ nth_error (lg_got s) 0 = Some [7]%Z.
Proof. exact lossy_ok. Qed.

Theorem c122_live : forall f ops s, lshort f -> lreach ops s -> whole ops leg0 -> lfull ops -> lfits s -> lg_lost s = false ->
  exists ops' s', lcalm ops' /\ whole (ops ++ ops') leg0 /\ lreach (ops ++ ops') s' /\
    v_calls (lg_srv s') = asked_for false ops /\ lg_got s' = lg_resp s ++ map f (skipn (length (lg_resp s)) (asked_for false ops)).
Proof. exact live_lemma. Qed.
Print Assumptions c122_live.
Example c122_live_case : lshort l_echo /\ exists s, lreach l_two s /\ whole l_two leg0 /\ lfull l_two /\ lfits s /\ lg_lost s = false /\ lg_wait s = [[3]]%Z /\ lg_got s = [].
Proof. exact two_live. Qed.

(** A request of the legacy protocol that reaches the server in pieces is executed piece by piece, and the caller is given the answer to the first piece
    (handle_read takes an empty socket for the end of the request, server_session_impl_v0.cpp 171-215; a request has no header, client_session_impl_v0.cpp 338-342). *)
Theorem c122_own_answer_refuted : ~ (forall ops s k m, lreach ops s -> lfull ops -> lfits s -> nth_error (lg_got s) k = Some m ->
  exists req, nth_error (asked_for false ops) k = Some req /\ nth_error (v_calls (lg_srv s)) k = Some req).
Proof. exact own_refuted. Qed.
Print Assumptions c122_own_answer_refuted.
Example c122_own_answer_refuted_case : l_view (l_torn [1] [2; 3] [4] [7] [8])%Z = Some ([[1; 2; 3]; [4]]%Z, [[1]; [2; 3]]%Z, [[7]; [8]]%Z).
Proof. vm_compute; reflexivity. Qed.

(** One torn request of the legacy protocol moves the answers of all later calls of the connection by one: the answer to the rest of the torn request is
    taken for the answer to the next call, and the answer to every later request goes to the caller after it, without an error
    (receive_service_response takes the next response in the stream, client_session_impl_v0.cpp 363-412). *)
Theorem c122_shifted_refuted : forall f a b reqs, lshort f -> Forall (fun p => p <> [] /\ length p <= max_length) (a :: b :: reqs) ->
  exists ops s, lreach ops s /\ asked_for false ops = (a ++ b) :: reqs /\ lg_lost s = false /\
    v_calls (lg_srv s) = removelast (a :: b :: reqs) /\ lg_got s = map f (removelast (a :: b :: reqs)).
Proof. exact shift_lemma. Qed.
Print Assumptions c122_shifted_refuted.
Example c122_shifted_refuted_case : lshort l_echo /\ map l_echo (removelast [[1]; [2; 3]; [4; 4; 4]; [5]]%Z) = [[1]; [2; 3]; [4; 4]]%Z.
Proof. exact shifted_ok. Qed.

(** A legacy call with an empty request is never answered, and no later call of the connection is: nothing is written, the client waits for a response, and the
    waiting calls are not sent (client_session_impl_v0.cpp 340-359, 385-405; no time limit). *)
Theorem c122_empty_refuted : forall ops s w ops' s', lreach ops s -> whole ops leg0 -> lfits s -> lg_flight s = false -> lg_wait s = [] :: w ->
  lg_run (LSend :: ops') s = Some s' -> lg_got s' = lg_got s /\ v_calls (lg_srv s') = v_calls (lg_srv s).
Proof. exact empty_lemma. Qed.
Print Assumptions c122_empty_refuted.
Example c122_empty_refuted_case : exists s, lreach l_void s /\ whole l_void leg0 /\ lfits s /\ lg_flight s = false /\ lg_wait s = [] :: [[2]%Z] /\ lg_run [LSend; LLost] s <> None.
Proof. exact void_ok. Qed.
