(** Services of a client (C33) and its event callbacks (C32). *)
From Verif Require Import Base Sample CsvModel CsvSpec CsvProofs.

(** C33: the connect and disconnect events of every service alternate, starting with a connect event,
    and IsConnected is exact for them. *)
Theorem c33_events_alternate : forall ops s tr k, k_run ops csv0 = Some (s, tr) ->
  alternating (changes k tr) (existsb (eqb k) (cv_connected s)).
Proof. exact alternate_lemma. Qed.
Print Assumptions c33_events_alternate.

(** C33: IsConnected holds exactly if the last event of some service was a connect event. *)
Theorem c33_is_connected : forall ops s tr, k_run ops csv0 = Some (s, tr) -> cv_is_connected s = true <-> exists k, alternating (changes k tr) true.
Proof. exact client_connected. Qed.
Print Assumptions c33_is_connected.

(** C33: a connect event is caused by an announcement of a service that is not counted as connected, a
    disconnect event by a session that has failed, a timeout event by a call without answer. *)
Theorem c33_causes : forall ops op s tr s' e t k c, k_run ops csv0 = Some (s, tr) -> k_step op s = Some (s', e) -> In (KEvent t k c) e ->
  match t with
  | CConnected => op = KAnnounce k /\ existsb (eqb k) (cv_connected s) = false
  | CDisconnected => op = KCheck /\ broken k s /\ existsb (eqb k) (cv_connected s) = true
  | CTimeout => exists n, op = KLate n
  end.
Proof. exact cause_lemma. Qed.
Print Assumptions c33_causes.

(** C33: after the check no service with a failed session counts as connected. *)
Theorem c33_loss_noticed : forall ops s tr s' e, k_run ops csv0 = Some (s, tr) -> k_step KCheck s = Some (s', e) -> cv_dead s' = false ->
  forall k, broken k s' -> existsb (eqb k) (cv_connected s') = false.
Proof. exact notice_lemma. Qed.
Print Assumptions c33_loss_noticed.

(** C33: after the refresh every announced service has a usable session, unless its session had failed
    before; an announced service without a session gets one. *)
Theorem c33_sessions_partial : forall ops s tr s' e k, k_run ops csv0 = Some (s, tr) -> announced ops k = true -> k_step KRefresh s = Some (s', e) ->
  usable k s' \/ broken k s.
Proof. exact refresh_lemma. Qed.
Print Assumptions c33_sessions_partial.

Theorem c33_new_service : forall ops s tr k, k_run ops csv0 = Some (s, tr) -> cv_dead s = false -> announced ops k = true -> aget k (cv_sessions s) = None ->
  exists s', k_step KRefresh s = Some (s', []) /\ usable k s'.
Proof. exact refresh_new. Qed.
Print Assumptions c33_new_service.

Example c33_example : exists s tr, k_run [KAdd CConnected 5; KAnnounce (str "a"); KAnnounce (str "b"); KRefresh; KFail (str "a"); KCheck] csv0 = Some (s, tr) /\
  tr = [KEvent CConnected (str "a") (Some 5); KEvent CConnected (str "b") (Some 5); KEvent CDisconnected (str "a") None] /\
  usable (str "b") s /\ broken (str "a") s /\ cv_connected s = [str "b"] /\ announced [KAnnounce (str "a")] (str "a") = true.
Proof. do 2 eexists. split; [vm_compute; reflexivity|]. repeat split. Qed.

(** C33 is refuted: a failed session stays failed whatever happens later, further announcements of the same
    server and refreshes included. *)
Theorem c33_no_reconnect_refuted : forall k ops s s' tr, broken k s -> k_run ops s = Some (s', tr) -> broken k s'.
Proof. exact broken_forever. Qed.
Print Assumptions c33_no_reconnect_refuted.

(** C33 is refuted: after the loss each announcement of the server raises a connect event and each check a
    disconnect event, without end; between the two the client counts as connected although it has no usable
    session. *)
Theorem c33_events_repeat_refuted : forall k n, exists s,
  k_run ([KAdd CConnected 1; KAdd CDisconnected 2; KAnnounce k; KRefresh; KFail k] ++ concat (repeat [KCheck; KAnnounce k] n)) csv0 =
    Some (s, KEvent CConnected k (Some 1) :: concat (repeat [KEvent CDisconnected k (Some 2); KEvent CConnected k (Some 1)] n)) /\
  broken k s /\ cv_is_connected s = true.
Proof. exact flapping_lemma. Qed.
Print Assumptions c33_events_repeat_refuted.

(** C32, client: an event goes to the callback in force for its type, and only a removed callback stops the
    process. *)
Theorem c32_client_events : forall ops op s tr s' e, k_run ops csv0 = Some (s, tr) -> k_step op s = Some (s', e) ->
  (forall t k c, In (KEvent t k c) e -> in_force ops t = match c with Some cb => Some (Some cb) | None => None end) /\
  (cv_dead s' = true -> exists t, in_force ops t = Some None).
Proof. exact client_events. Qed.
Print Assumptions c32_client_events.

(** C32, client: without removed callbacks the process survives. *)
Theorem c32_client_survives_partial : forall ops s tr, k_run ops csv0 = Some (s, tr) -> (forall t, ~ In (KRem t) ops) -> cv_dead s = false.
Proof. exact client_survives. Qed.
Print Assumptions c32_client_survives_partial.

Example c32_client_example : exists s tr, k_run [KAdd CTimeout 4; KAdd CTimeout 7; KLate 2] csv0 = Some (s, tr) /\
  tr = [KEvent CTimeout [] (Some 7); KEvent CTimeout [] (Some 7)] /\ cv_dead s = false.
Proof. do 2 eexists. split; [vm_compute; reflexivity|]. split; reflexivity. Qed.

(** C32 is refuted for the client: for each type of event, the next event after the removal of its callback
    stops the process. *)
Theorem c32_client_removed_callback_refuted : forall t, exists ops s tr,
  k_run ([KAdd t 1; KRem t] ++ ops) csv0 = Some (s, tr ++ [KTerminate]) /\ cv_dead s = true.
Proof. exact client_removed. Qed.
Print Assumptions c32_client_removed_callback_refuted.
