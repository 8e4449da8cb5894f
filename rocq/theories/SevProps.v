(** Property C59: connection events of a service server, and the server's part of C32. *)
From Verif Require Import Base SevModel SevSpec SevProofs.

(** If clients come and go one at a time, the user's callbacks learn exactly that the first client
    of a protocol version has connected and that the last one has gone, in this order. *)
Theorem c59_one_at_a_time_partial : forall ops s tr, n_run ops sev0 = Some (s, tr) -> one_at_a_time ops -> se_dead s = false -> se_pending s = [] ->
  reports tr = expectation [] ops /\ se_v0 s = connected ops false /\ se_v1 s = connected ops true.
Proof. exact serial_lemma. Qed.
Print Assumptions c59_one_at_a_time_partial.

(** In any order: when all events are dealt with, no session is in its handshake and no handshake
    was refused, the server knows for each protocol version whether it has clients. *)
Theorem c59_settled_partial : forall ops s tr, n_run ops sev0 = Some (s, tr) -> (forall i, ~ In (NRefuse i) ops) ->
  se_pending s = [] -> handshakes s = [] ->
  se_v0 s = connected ops false /\ se_v1 s = connected ops true.
Proof. exact settled_lemma. Qed.
Print Assumptions c59_settled_partial.

(** A connected client is never overlooked, even with refused handshakes. *)
Theorem c59_client_known : forall ops s tr v, n_run ops sev0 = Some (s, tr) -> connected ops v = true ->
  (if v then se_v1 s else se_v0 s) = true \/ exists i t, aget i (se_pending s) = Some (t, PFlags).
Proof. exact known_lemma. Qed.
Print Assumptions c59_client_known.

(** The events can always be dealt with. *)
Theorem c59_settles : forall ops s tr, n_run ops sev0 = Some (s, tr) -> (forall t, ~ In (NRem t) ops) ->
  exists ops' s' tr', forallb (fun op => match op with NFlags _ | NCall _ => true | _ => false end) ops' = true /\
    n_run (ops ++ ops') sev0 = Some (s', tr ++ tr') /\ se_pending s' = [].
Proof. exact settle_lemma. Qed.
Print Assumptions c59_settles.

Example c59_example : let ops := [NAdd EConn 1; NAdd EDisc 2; NAccept 1 true; NConnect 1; NFlags 1; NCall 1; NAccept 2 true; NConnect 2; NFlags 2; NLost 1; NFlags 1; NLost 2; NFlags 2; NCall 2] in
  exists s, n_run ops sev0 = Some (s, [NEvent 1 EConn (Some 1); NEvent 2 EDisc (Some 2)]) /\ expectation [] ops = [(1, EConn); (2, EDisc)] /\ se_pending s = [] /\ se_dead s = false.
Proof. eexists. split; [vm_compute; reflexivity|]. repeat split. Qed.
Example c59_one_at_a_time_case : one_at_a_time [NAccept 1 true; NConnect 1; NFlags 1; NCall 1; NLost 1; NFlags 1; NCall 1].
Proof.
  intros ops1 op ops2 s tr E R. do 8 (destruct ops1 as [|o1 ops1]; [cbn in E; try discriminate; injection E as <- <-; cbn in R; injection R as <- <-; repeat split|
    try discriminate; injection E as <- E]).
Qed.

(** A session in its handshake hides that the last client has gone, and if its handshake is then
    refused the server believes for ever that it has a client. *)
Theorem c59_handshake_hides_disconnect_refuted :
  let ops := [NAdd EConn 1; NAdd EDisc 2; NAccept 1 true; NConnect 1; NFlags 1; NCall 1; NAccept 2 true; NLost 1; NFlags 1; NRefuse 2] in
  exists s, n_run ops sev0 = Some (s, [NEvent 1 EConn (Some 1)]) /\
  se_pending s = [] /\ handshakes s = [] /\ connected ops true = false /\ se_v1 s = true /\ is_connected s = false.
Proof. exact stuck_refuted. Qed.
Print Assumptions c59_handshake_hides_disconnect_refuted.
Theorem c59_next_client_not_reported_refuted :
  exists s, n_run (stuck_run ++ [NAccept 3 true; NConnect 3; NFlags 3]) sev0 = Some (s, [NEvent 1 EConn (Some 1)]) /\
  se_pending s = [] /\ expectation [] (stuck_run ++ [NAccept 3 true; NConnect 3; NFlags 3]) = [(1, EConn); (1, EDisc); (3, EConn)].
Proof. exact stuck_next_refuted. Qed.
Print Assumptions c59_next_client_not_reported_refuted.

(** A client of one protocol version in its handshake turns the departure of one of two clients of
    the other version into a disconnect event, and its own connection is not reported. *)
Theorem c59_wrong_event_refuted :
  exists s, n_run mixed_run sev0 = Some (s, [NEvent 1 EConn (Some 1); NEvent 2 EDisc (Some 2)]) /\ se_pending s = [] /\
  expectation [] mixed_run = [(1, EConn); (3, EConn)].
Proof. exact wrong_type_refuted. Qed.
Print Assumptions c59_wrong_event_refuted.

(** The callbacks of two changes can run in the wrong order. *)
Theorem c59_order_refuted :
  exists s, n_run swapped_run sev0 = Some (s, [NEvent 1 EConn (Some 1); NEvent 2 EConn (Some 1); NEvent 1 EDisc (Some 2)]) /\
  se_pending s = [] /\ connected swapped_run true = true.
Proof. exact swapped_refuted. Qed.
Print Assumptions c59_order_refuted.

(** Between handshakes IsConnected is exact. *)
Theorem c59_is_connected_partial : forall ops s tr, n_run ops sev0 = Some (s, tr) -> handshakes s = [] ->
  is_connected s = true <-> exists i, In i (clients ops).
Proof. exact is_connected_lemma. Qed.
Print Assumptions c59_is_connected_partial.
Example c59_is_connected_case : exists s, n_run [NAccept 1 false; NConnect 1; NAccept 2 true; NRefuse 2] sev0 = Some (s, []) /\ handshakes s = [] /\ clients [NAccept 1 false; NConnect 1; NAccept 2 true; NRefuse 2] = [1] /\ is_connected s = true.
Proof. eexists. split; [reflexivity|]. repeat split. Qed.

(** IsConnected is true for a session in its handshake. *)
Theorem c59_is_connected_in_handshake_refuted : exists s, n_run [NAccept 1 true] sev0 = Some (s, []) /\ is_connected s = true /\
  connected [NAccept 1 true] false = false /\ connected [NAccept 1 true] true = false.
Proof. exact handshake_connected_refuted. Qed.
Print Assumptions c59_is_connected_in_handshake_refuted.

(** Server, C32: every event runs the callback installed last for its type, or none if there never
    was one; the process is terminated only by a callback that was removed. *)
Theorem c32_server_events : forall ops op s tr s' e, n_run ops sev0 = Some (s, tr) -> n_step op s = Some (s', e) ->
  match e with
  | [] => se_dead s' = false
  | [NEvent i t c] => installed ops t = match c with Some cb => Some (Some cb) | None => None end /\ se_dead s' = false
  | [NTerminate i] => (exists t, installed ops t = Some None) /\ se_dead s' = true
  | _ => False
  end.
Proof. exact events_lemma. Qed.
Print Assumptions c32_server_events.
Theorem c32_server_survives_partial : forall ops s tr, n_run ops sev0 = Some (s, tr) -> (forall t, ~ In (NRem t) ops) -> se_dead s = false.
Proof. exact survives_lemma. Qed.
Print Assumptions c32_server_survives_partial.
Theorem c32_server_removed_callback_refuted :
  exists s, n_run [NAdd EConn 1; NRem EConn; NAccept 1 true; NConnect 1; NFlags 1; NCall 1] sev0 = Some (s, [NTerminate 1]) /\ se_dead s = true.
Proof. exact removed_terminates. Qed.
Print Assumptions c32_server_removed_callback_refuted.
