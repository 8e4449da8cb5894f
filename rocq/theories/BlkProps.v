(** Property C30: blocking calls to several servers. *)
From Verif Require Import Base Sample PbModel PbSpec SerModel SerSpec SrvSpec BlkModel BlkSpec BlkProofs.

(** One result per called server, in the order of the services: its own answer if it came before
    the caller stopped waiting, and a failure otherwise. *)
Theorem c30_results : forall host method timed services sessions ops s res,
  b_run host method timed ops (blk0 services sessions) = Some s -> bk_ret s = Some res ->
  length res = length (called host services sessions ops) /\
  forall i p, nth_error (called host services sessions ops) i = Some p ->
    nth_error res i = Some (match in_time ops i with Some _ => true | None => false end, outcome method p (in_time ops i)).
Proof. exact call_lemma. Qed.
Print Assumptions c30_results.

(** The called servers are the known ones of the wanted host to which the client has a session. *)
Theorem c30_servers : forall host method timed services sessions ops s,
  b_run host method timed ops (blk0 services sessions) = Some s -> bk_ret s <> None -> (forall k, ~ In (BSession k) ops) ->
  map fst (called host services sessions ops) = filter (fun t => (wanted host t && existsb (eqb (tg_key t)) sessions)%bool) services.
Proof. exact targets_lemma. Qed.
Print Assumptions c30_servers.

(** Answers that come later change nothing. *)
Theorem c30_late_answers : forall host method timed services sessions ops ops' s s' res,
  b_run host method timed ops (blk0 services sessions) = Some s -> bk_ret s = Some res ->
  b_run host method timed ops' s = Some s' -> bk_ret s' = Some res.
Proof. exact later_lemma. Qed.
Print Assumptions c30_late_answers.

(** The call reports success exactly if a server says that it executed it. *)
Theorem c30_success : forall host method timed services sessions ops s res,
  b_run host method timed ops (blk0 services sessions) = Some s -> bk_ret s = Some res ->
  (snd (call_vec timed res) = true <->
     exists i p, nth_error (called host services sessions ops) i = Some p /\ executed (outcome method p (in_time ops i))) /\
  snd (call_cb timed res) = snd (call_vec timed res).
Proof. exact success_lemma. Qed.
Print Assumptions c30_success.
(** The callback form hands over exactly the answers that came in time, in the order of the services; both
    forms raise one timeout event for each service without one, if the call has a timeout. *)
Theorem c30_handed_over : forall host method timed services sessions ops s res,
  b_run host method timed ops (blk0 services sessions) = Some s -> bk_ret s = Some res ->
  fst (fst (call_cb timed res)) = answers_in_time method ops 0 (called host services sessions ops) /\
  fst (fst (call_vec timed res)) = map snd res /\
  snd (fst (call_cb timed res)) = (if timed then without_answer ops 0 (called host services sessions ops) else 0) /\
  snd (fst (call_vec timed res)) = (if timed then without_answer ops 0 (called host services sessions ops) else 0).
Proof. exact callback_lemma. Qed.
Print Assumptions c30_handed_over.
Theorem c30_executed : forall method p a,
  executed (outcome method p a) <-> exists bs r, a = Some (ABytes bs) /\ de_response bs = Ok r /\ h_state (rp_header r) = 1%Z.
Proof. exact executed_lemma. Qed.
Print Assumptions c30_executed.

(** The answer of a server (C31) arrives unchanged. *)
Theorem c30_own_answer_partial : forall host name id m resp ret method p,
  i32 ret -> let r := say_executed host name id m resp ret in (len (ser_response r) < 2 ^ 32)%Z ->
  outcome method p (Some (ABytes (ser_response r))) = SResp host name id m [] ret 1 resp.
Proof. exact own_answer. Qed.
Print Assumptions c30_own_answer_partial.

(** Without timeout, and whenever it is not the timeout that ends the waiting, every accepted call
    has been answered; and then waiting can end. *)
Theorem c30_waits_for_all : forall host method timed services sessions ops s s',
  b_run host method timed ops (blk0 services sessions) = Some s -> b_step host method timed BWake s = Some s' ->
  forall i t, nth_error (called host services sessions ops) i = Some (t, true) -> in_time ops i <> None.
Proof. exact wake_lemma. Qed.
Print Assumptions c30_waits_for_all.
Theorem c30_returns : forall host method timed services sessions ops s,
  b_run host method timed ops (blk0 services sessions) = Some s -> bk_ret s = None -> bk_todo s = [] ->
  (forall i t, nth_error (called host services sessions ops) i = Some (t, true) -> answer_of ops i <> None) ->
  b_step host method timed BWake s <> None.
Proof. exact can_wake_lemma. Qed.
Print Assumptions c30_returns.
Theorem c30_all_are_called : forall host method timed s ok, bk_todo s <> [] -> b_step host method timed (BIssue ok) s <> None.
Proof. exact issue_lemma. Qed.
Print Assumptions c30_all_are_called.
Theorem c30_answers_accepted : forall host method timed services sessions ops s i t a,
  b_run host method timed ops (blk0 services sessions) = Some s -> nth_error (called host services sessions ops) i = Some (t, true) ->
  answer_of ops i = None -> b_step host method timed (BAnswer i a) s <> None.
Proof. exact answer_lemma. Qed.
Print Assumptions c30_answers_accepted.

Example c30_example : let svc := [Target (str "k1") (str "h1") (str "s"); Target (str "k2") (str "h2") (str "s"); Target (str "k3") (str "h1") (str "s"); Target (str "k4") (str "h1") (str "s")] in
  let ops := [BIssue true; BIssue true; BAnswer 0 (ABytes (ser_response (say_executed (str "h1") (str "s") (str "7") (str "m") [5]%Z (-3)))); BIssue true; BIssue true; BTimeout; BAnswer 1 (AError (str "gone"))] in
  exists s res, b_run (str "h1") (str "m") true ops (blk0 svc [str "k1"; str "k2"; str "k3"]) = Some s /\ bk_ret s = Some res /\
  res = [(true, SResp (str "h1") (str "s") (str "7") (str "m") [] (-3) 1 [5]%Z); (false, SResp (str "h1") (str "s") (str "k3") (str "m") (str "Timeout") 0 2 [])] /\
  call_vec true res = (map snd res, 1, true) /\ call_cb true res = (map snd (firstn 1 res), 1, true).
Proof. do 2 eexists. split; [vm_compute; reflexivity|]. split; [reflexivity|]. split; [|split]; vm_compute; reflexivity. Qed.

(** A timeout event is raised for a call that was never sent and for which nothing timed out. *)
Theorem c30_stopped_session_raises_timeout_refuted : exists s res,
  b_run [] (str "m") true [BIssue false; BWake] (blk0 [Target (str "k") (str "h") (str "srv")] [str "k"]) = Some s /\ bk_ret s = Some res /\
  called [] [Target (str "k") (str "h") (str "srv")] [str "k"] [BIssue false; BWake] = [(Target (str "k") (str "h") (str "srv"), false)] /\
  snd (fst (call_vec true res)) = 1.
Proof. exact stopped_timeout. Qed.
Print Assumptions c30_stopped_session_raises_timeout_refuted.
