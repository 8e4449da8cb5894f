(** Properties of asynchronous service calls (C29). *)
From Coq Require Import Permutation.
From Verif Require Import Base CliModel CliSpec CliProofs.

(** In every execution each accepted call is answered at most once, and nothing else is. *)
Theorem c29_at_most_once : forall n ops s tr, c_run ops (c_init n) = Some (s, tr) -> NoDup (answers tr) /\ incl (answers tr) (accepts tr).
Proof. exact at_most_lemma. Qed.
Print Assumptions c29_at_most_once.

(** When nothing is left to do, each accepted call has been answered exactly once - after a
    connection loss, a stop or a failed connection as well. *)
Theorem c29_exactly_once : forall n ops s tr, c_run ops (c_init n) = Some (s, tr) -> settled s -> Permutation (answers tr) (accepts tr).
Proof. exact settled_lemma. Qed.
Print Assumptions c29_exactly_once.

(** The session gets there: the number of handlers that can run is bounded by the number of
    calls and of servers. *)
Theorem c29_settles : forall n ops s tr, c_run ops (c_init n) = Some (s, tr) ->
  length (filter internal ops) <= 7 + 2 * n + 6 * length (filter is_call ops).
Proof. exact steps_lemma. Qed.
Print Assumptions c29_settles.

(** Requests are sent and successfully answered in the order of the calls; a request is sent
    only when the one before has been answered. *)
Theorem c29_order : forall n ops s tr, c_run ops (c_init n) = Some (s, tr) ->
  subseq (sends tr) (accepts tr) /\ subseq (oks tr) (sends tr) /\ one_at_a_time None tr.
Proof. exact order_lemma. Qed.
Print Assumptions c29_order.

(** Connected is reported at most once, Disconnected at most once and after it; the session is
    connected exactly in between. *)
Theorem c29_connection_events : forall n ops s tr, c_run ops (c_init n) = Some (s, tr) ->
  (conn_events tr = [] \/ conn_events tr = [true] \/ conn_events tr = [true; false]) /\ (c_phase s = PConnected <-> conn_events tr = [true]).
Proof. exact conn_lemma. Qed.
Print Assumptions c29_connection_events.

(** After stop no call is accepted; unless the connection is still being made, no request sent
    after it is answered successfully. *)
Theorem c29_stop : forall n ops1 ops2 s1 tr1 s2 tr2, c_run ops1 (c_init n) = Some (s1, tr1) -> c_run (CStop :: ops2) s1 = Some (s2, tr2) ->
  accepts tr2 = [] /\ (connecting (c_phase s1) = false -> forall c, In c (sends tr2) -> ~ In c (oks tr2)).
Proof. exact stop_lemma. Qed.
Print Assumptions c29_stop.

(** A stop while the connection is being made is without effect: the session connects, and the
    calls accepted before are sent and answered. *)
Theorem c29_stop_while_connecting_refuted :
  ~ (forall n ops1 ops2 s1 tr1 s2 tr2, c_run ops1 (c_init n) = Some (s1, tr1) -> c_run (CStop :: ops2) s1 = Some (s2, tr2) ->
     forall c, In c (sends tr2) -> ~ In c (oks tr2)).
Proof. exact stop_refuted. Qed.
Print Assumptions c29_stop_while_connecting_refuted.

(** Error answers may overtake each other. *)
Theorem c29_error_order_refuted : ~ (forall n ops s tr, c_run ops (c_init n) = Some (s, tr) -> subseq (answers tr) (accepts tr)).
Proof. exact error_order_refuted. Qed.
Print Assumptions c29_error_order_refuted.

(** A connected session may have nothing pending: a loss of the connection goes unnoticed until
    the next call. *)
Theorem c29_idle_loss_is_noticed_refuted :
  ~ (forall n ops s tr, c_run ops (c_init n) = Some (s, tr) -> c_phase s = PConnected -> exists op, internal op = true /\ c_step op s <> None).
Proof. exact watch_refuted. Qed.
Print Assumptions c29_idle_loss_is_noticed_refuted.

(** Three calls: the first before the connection is there, the second answered, the third lost
    with the connection; then settled. *)
Example c29_example : exists s tr, c_run c29_ops (c_init 2) = Some (s, tr) /\ accepts tr = [0; 1; 2] /\ answers tr = [0; 1; 2] /\ oks tr = [0; 1]
  /\ conn_events tr = [true; false] /\ settled s.
Proof.
  eexists _, _. split; [vm_compute; reflexivity|]. repeat split. intros op I N.
  destruct op; cbn in I, N; try discriminate I; try (exfalso; apply N; reflexivity). eauto.
Qed.
(** A stop in the middle of a request. *)
Example c29_stop_example : exists s1 tr1 s2 tr2,
  c_run (connect_ops ++ [CCall; CPost; CCall; CPost; CSent true]) (c_init 1) = Some (s1, tr1) /\ connecting (c_phase s1) = false
  /\ c_run (CStop :: [CCall; CReceived RGood; CSent false; CLoss]) s1 = Some (s2, tr2) /\ sends tr2 = [1] /\ oks tr2 = [0] /\ answers tr2 = [0; 1].
Proof. eexists _, _, _, _. split; [vm_compute; reflexivity|]. split; [reflexivity|]. split; [vm_compute; reflexivity|]. auto. Qed.
