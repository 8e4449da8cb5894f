From Verif Require Import Base TmrModel TmrSpec TmrProofs.

(** In programs that start and stop each timer from one thread of the user: Start says true exactly for a timer that is off and a timeout that is not
    negative, Stop says true exactly for a timer that is on, whatever the threads do meanwhile, in C++ and in C. *)
Theorem c110_answers : forall c_api own es, calm c_api own es = true -> let os := snd (t_run c_api ts_init es) in
  (forall o1 a k to b o2, os = o1 ++ OStart a k to b :: o2 -> b = negb (is_on k o1) && (0 <=? to)%Z) /\
  (forall o1 a k b o2, os = o1 ++ OStop a k b :: o2 -> b = is_on k o1).
Proof. exact answers_lemma. Qed.
Print Assumptions c110_answers.
Example c110_answers_ex : calm true (fun _ => 0) plain_use = true /\ snd (t_run true ts_init plain_use) =
  [OAsk (User 0) 7; OStart (User 0) 7 100 true; OCall 0 7; OBack 0 7; OCall 0 7; OBack 0 7; OStop (User 0) 7 true].
Proof. split; reflexivity. Qed.

(** A callback begins only between a call of Start and the return of the next Stop: none behind Stop. *)
Theorem c110_after_stop : forall c_api own es, calm c_api own es = true -> forall o1 w k o2, snd (t_run c_api ts_init es) = o1 ++ OCall w k :: o2 -> wanted k o1 = true.
Proof. exact after_lemma. Qed.
Print Assumptions c110_after_stop.
Example c110_after_stop_ex : wanted 7 (snd (t_run true ts_init plain_use)) = false /\ wanted 7 (firstn 4 (snd (t_run true ts_init plain_use))) = true.
Proof. split; reflexivity. Qed.

(** When no call is in progress and the timer is off, every thread it ever had is gone: no callback is still inside. *)
Theorem c110_quiet : forall c_api own es k, calm c_api own es = true -> ts_calls (fst (t_run c_api ts_init es)) = [] -> is_on k (snd (t_run c_api ts_init es)) = false ->
  forall w x, aget w (ts_workers (fst (t_run c_api ts_init es))) = Some x -> wk_timer x = k -> wk_pc x = LGone.
Proof. exact out_lemma. Qed.
Print Assumptions c110_quiet.
Example c110_quiet_ex : aget 0 (ts_workers (fst (t_run true ts_init plain_use))) = Some (Wk 7 false LGone) /\ ts_calls (fst (t_run true ts_init plain_use)) = [].
Proof. split; reflexivity. Qed.

(** In C no callback of a timer begins while another one runs: for every program. *)
Theorem c110_one_at_a_time : forall es o1 w k o2, snd (t_run true ts_init es) = o1 ++ OCall w k :: o2 -> forall w', running_in w' o1 = false.
Proof. exact one_lemma. Qed.
Print Assumptions c110_one_at_a_time.
Example c110_one_at_a_time_ex : let es := crossing ++ go (Worker 1) 1 in
  (exists o, snd (t_run false ts_init es) = o ++ [OCall 1 2] /\ running_in 0 o = true) /\ ~ In (OCall 1 2) (snd (t_run true ts_init es)).
Proof. split; [exists [OAsk (User 0) 1; OStart (User 0) 1 100 true; OAsk (User 0) 2; OStart (User 0) 2 100 true; OCall 0 1]; split; reflexivity|]. vm_compute. intuition discriminate. Qed.

(** Such programs never end the process. *)
Theorem c110_safe : forall c_api own es, calm c_api own es = true -> ts_dead (fst (t_run c_api ts_init es)) = false.
Proof. exact safe_timer. Qed.
Print Assumptions c110_safe.
Example c110_safe_ex : calm false (fun k => k) (map (fun e => match e with EStart _ k t n => EStart (User k) k t n | EStop _ k => EStop (User k) k | EGo a => EGo a end) crossing) = true.
Proof. reflexivity. Qed.

(** And never lock: from everywhere, all calls that are in progress can return. *)
Theorem c110_completes : forall c_api own es, calm c_api own es = true -> exists es', only_go es' = true /\ ts_calls (fst (t_run c_api ts_init (es ++ es'))) = [].
Proof. exact completes_lemma. Qed.
Print Assumptions c110_completes.
Example c110_completes_ex : aget (User 0) (ts_calls (fst (t_run true ts_init (firstn 19 plain_use)))) = Some (KStop2 7) /\
  only_go (skipn 19 plain_use) = true /\ ts_calls (fst (t_run true ts_init plain_use)) = [].
Proof. repeat split. Qed.

(** A timer that is on can always call again, when no call is in progress. *)
Theorem c110_alive : forall c_api own es k, calm c_api own es = true -> with_callback es = true -> let s := fst (t_run c_api ts_init es) in
  ts_calls s = [] -> is_on k (snd (t_run c_api ts_init es)) = true -> exists es' w, only_go es' = true /\ In (OCall w k) (snd (t_run c_api s es')).
Proof. exact alive_lemma. Qed.
Print Assumptions c110_alive.
Example c110_alive_ex : let es := firstn 9 plain_use in calm true (fun _ => 0) es = true /\ with_callback es = true /\ ts_calls (fst (t_run true ts_init es)) = [] /\ is_on 7 (snd (t_run true ts_init es)) = true.
Proof. repeat split. Qed.

(** In C, for every program: once a callback waits in Stop for the thread of another timer, and that thread waits to begin its callback, Stop
    never returns and no timer of the process calls back ever again. *)
Theorem c110_c_deadlock : forall es w v k x, let s := fst (t_run true ts_init es) in
  aget (Worker w) (ts_calls s) = Some (KStop2 k) -> tm_thread (tm_get k s) = Some v -> aget v (ts_workers s) = Some x -> wk_pc x = LEnter ->
  forall es', aget (Worker w) (ts_calls (fst (t_run true s es'))) = Some (KStop2 k) /\
    forall o, In o (snd (t_run true s es')) -> (forall w' k', o <> OCall w' k') /\ (forall k' b, o <> OStop (Worker w) k' b).
Proof. exact deadlock_lemma. Qed.
Print Assumptions c110_c_deadlock.
Example c110_c_deadlock_ex : let s := fst (t_run true ts_init crossing) in aget (Worker 0) (ts_calls s) = Some (KStop2 2) /\ tm_thread (tm_get 2 s) = Some 1 /\
  aget 1 (ts_workers s) = Some (Wk 2 false LEnter) /\
  (* in C++ the same program goes on *)
  ts_calls (fst (t_run false ts_init (crossing ++ go (Worker 1) 5 ++ go (Worker 0) 2))) = [].
Proof. repeat split. Qed.

(** Not true: in C, a callback may stop another timer.  The mutex that all callbacks of the process share is held during the callback; if the thread of
    the other timer is just about to call back, it waits for the mutex, and the callback waits for it to end. *)
Theorem c110_c_stop_refuted : ~ (forall es, exists es', only_go es' = true /\ ts_calls (fst (t_run true ts_init (es ++ es'))) = []).
Proof. exact stop_blocks_refuted. Qed.
Print Assumptions c110_c_stop_refuted.

(** A callback that stops its own timer ends the process: the thread joins itself, an exception that nobody catches. *)
Theorem c110_self_stop : forall c_api s w k n, ts_dead s = false -> aget (Worker w) (ts_calls s) = None -> aget w (ts_workers s) = Some (Wk k n LIn) ->
  tm_running (tm_get k s) = true -> tm_thread (tm_get k s) = Some w -> ts_dead (fst (t_run c_api s (EStop (Worker w) k :: go (Worker w) 3))) = true.
Proof. exact self_stop_lemma. Qed.
Print Assumptions c110_self_stop.
Example c110_self_stop_ex : ts_dead (fst (t_run false ts_init self_stop)) = true /\ ts_dead (fst (t_run true ts_init self_stop)) = true.
Proof. split; reflexivity. Qed.

(** Not true: a callback can stop its own timer.  It joins its own thread, which throws, and the exception leaves the thread. *)
Theorem c110_self_stop_refuted : ~ (forall c_api es, with_callback es = true -> ts_dead (fst (t_run c_api ts_init es)) = false).
Proof. exact self_no. Qed.
Print Assumptions c110_self_stop_refuted.

(** Not true: whenever a callback of a timer runs, Stop finds the timer running.  The first callback can run before Start has noted that the timer runs;
    Stop then says false, does nothing, and the timer goes on. *)
Theorem c110_early_stop_refuted : ~ (forall c_api es o1 w a k b o2, snd (t_run c_api ts_init es) = o1 ++ OStop a k b :: o2 -> In (OCall w k) o1 -> (forall a' b', ~ In (OStop a' k b') o1) -> b = true).
Proof. exact early_no. Qed.
Print Assumptions c110_early_stop_refuted.

(** Not true: two threads may stop a timer.  Both find it running, both join; the second finds no thread to join and throws. *)
Theorem c110_both_stop_refuted : ~ (forall es, with_callback es = true -> forallb (fun e => match e with EStart (Worker _) _ _ _ | EStop (Worker _) _ => false | _ => true end) es = true ->
  ts_dead (fst (t_run false ts_init es)) = false).
Proof. exact both_no. Qed.
Print Assumptions c110_both_stop_refuted.

(** Not true: a null callback is tolerated.  In C++ the thread ends at once, while the timer counts as running; in C the callback is wrapped before
    it is tested, so the test never finds it null, and a null pointer is called. *)
Theorem c110_null_refuted : ~ (forall c_api own es, calm false own es = true -> ts_dead (fst (t_run c_api ts_init es)) = false).
Proof. exact null_no. Qed.
Print Assumptions c110_null_refuted.
Example c110_null_ex : is_on 1 (snd (t_run false ts_init null_use)) = true /\ aget 0 (ts_workers (fst (t_run false ts_init null_use))) = Some (Wk 1 true LGone).
Proof. split; reflexivity. Qed.
