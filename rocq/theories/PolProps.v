(** Property C118: memory files are watched while their publishers are heard. *)
From Coq Require Import Sorted.
From Verif Require Import Base Sample PolModel PolSpec PolProofs.

(** Every observer was started or kept by a sign of life at the time it goes by, and it counts as
    observing exactly until its thread has ended. *)
Theorem c118_observer ops s evs f o : ran ops s evs -> watches s f o -> (ob_alive o = true <-> ~ over o) /\ sign f (ob_last o) evs.
Proof. exact (one_thread ops s evs f o). Qed.
Print Assumptions c118_observer.
Example c118_observer_case : exists s evs o, ran p_live s evs /\ watches s p_f o /\ ob_last o = 18000%Z /\ ob_alive o = true.
Proof. eexists. eexists. eexists. split; [vm_compute; reflexivity|]. split; [vm_compute; reflexivity|]. split; reflexivity. Qed.

(** A file that has no observer gets one, from now on. *)
Theorem c118_starts ops s evs f to now : ran ops s evs -> In (f, to) (pl_in s) -> aget f (pl_map s) = None ->
  exists s' o, ran (ops ++ [PoBody f to now]) s' (evs ++ [PRet f now]) /\ watches s' f o /\ looping o /\ ob_last o = now /\ ob_to o = to.
Proof. exact (starts ops s evs f to now). Qed.
Print Assumptions c118_starts.
Example c118_starts_case : exists s evs, ran [PoStart; PoEnter p_f 10000] s evs /\ In (p_f, 10000%Z) (pl_in s) /\ aget p_f (pl_map s) = None.
Proof. eexists. eexists. split; [vm_compute; reflexivity|]. split; [now left|reflexivity]. Qed.

(** For an observer whose thread is in its loop the time begins anew; no second thread is started. *)
Theorem c118_renews ops s evs f o to now : ran ops s evs -> In (f, to) (pl_in s) -> watches s f o -> looping o ->
  exists s' o', ran (ops ++ [PoBody f to now]) s' (evs ++ [PRet f now]) /\ watches s' f o' /\ looping o' /\ ob_last o' = now /\ ob_to o' = ob_to o /\ ob_run o' = ob_run o.
Proof. exact (renews ops s evs f o to now). Qed.
Print Assumptions c118_renews.
Example c118_renews_case : exists s evs o, ran (p_live ++ [PoEnter p_f 10000]) s evs /\ In (p_f, 10000%Z) (pl_in s) /\ watches s p_f o /\ looping o.
Proof. eexists. eexists. eexists. split; [vm_compute; reflexivity|]. split; [now left|]. split; [vm_compute; reflexivity|now left]. Qed.

(** An observer in its loop stays there, with the same thread, as long as the pool is not stopped and every
    time the thread looks at the clock there was a sign of life within the timeout; and what it
    hands over in that time has ascending counters: nothing twice. *)
Theorem c118_stays a b s evs s' evs' f o : steady (a ++ b) -> ran a s evs -> watches s f o -> looping o -> ran (a ++ b) s' (evs ++ evs') -> ~ In PoStop b ->
  (forall b1 b2 now s1 e1, b = b1 ++ PoCheck f now :: b2 -> ran (a ++ b1) s1 (evs ++ e1) -> exists t, (t = ob_last o \/ sign f t e1) /\ (now - t < ob_to o)%Z) ->
  exists o', watches s' f o' /\ looping o' /\ ob_run o' = ob_run o /\ (forall r c, In (PHand f r c) evs' -> r = ob_run o) /\ StronglySorted Z.lt (handed f (ob_run o) evs').
Proof. exact (stays a b s evs s' evs' f o). Qed.
Print Assumptions c118_stays.
Example c118_stays_case : p_view p_live = Some (PhCheck, true, 1) /\ handed p_f 1 (p_events p_live) = [1; 2]%Z /\
  p_view p_pause = Some (PhDone, false, 1) /\ steady p_live.
Proof. split; [vm_compute; reflexivity|]. split; [vm_compute; reflexivity|]. split; [vm_compute; reflexivity|]. exact p_live_steady. Qed.

(** What is signalled is handed over, if its counter is higher than that of the content before it. *)
Theorem c118_hands ops s evs f o now c : ran ops s evs -> watches s f o -> ob_ph o = PhWait -> (ob_clock o < c)%Z ->
  exists s' o', ran (ops ++ [PoWait f true now; PoTry f true c]) s' (evs ++ [PSig f now; PHand f (ob_run o) c]) /\ watches s' f o' /\ looping o' /\ ob_last o' = now /\ ob_clock o' = c.
Proof. exact (hands ops s evs f o now c). Qed.
Print Assumptions c118_hands.
Example c118_hands_case : exists s evs o, ran (p_live ++ [PoCheck p_f 27020]) s evs /\ watches s p_f o /\ ob_ph o = PhWait /\ ob_clock o = 2%Z.
Proof. eexists. eexists. eexists. split; [vm_compute; reflexivity|]. split; [vm_compute; reflexivity|]. split; reflexivity. Qed.

(** Without a sign of life for the whole timeout the thread ends when it next looks at the clock, and the
    next cleaning removes the observer. *)
Theorem c118_silence ops s evs f o now : ran ops s evs -> watches s f o -> ob_ph o = PhCheck -> (forall t, sign f t evs -> (ob_to o <= now - t)%Z) ->
  exists s' o', ran (ops ++ [PoCheck f now; PoEnd f]) s' evs /\ watches s' f o' /\ over o' /\
    (pl_on s = true -> exists s'', ran (ops ++ [PoCheck f now; PoEnd f; PoClean]) s'' evs /\ aget f (pl_map s'') = None).
Proof. exact (silence ops s evs f o now). Qed.
Print Assumptions c118_silence.
Example c118_silence_case : p_view (p_live ++ [PoCheck p_f 28000; PoEnd p_f]) = Some (PhDone, false, 1) /\ p_view (p_live ++ [PoCheck p_f 28000; PoEnd p_f; PoClean]) = None /\
  p_view (p_live ++ [PoCheck p_f 27999]) = Some (PhWait, true, 1).
Proof. vm_compute. auto. Qed.

(** After the cleaning the file can be watched again. *)
Theorem c118_recovers ops s evs f o to now : ran ops s evs -> watches s f o -> over o -> pl_on s = true -> f <> [] ->
  exists s' o', ran (ops ++ [PoClean; PoEnter f to; PoBody f to now]) s' (evs ++ [PRet f now]) /\ watches s' f o' /\ looping o' /\ ob_last o' = now /\ ob_to o' = to.
Proof. exact (recovers ops s evs f o to now). Qed.
Print Assumptions c118_recovers.
Example c118_recovers_case : p_view (p_pause ++ PoClean :: p_call 10200 ++ p_message 10300 2) = Some (PhCheck, true, 1) /\
  p_events (p_pause ++ PoClean :: p_call 10200 ++ p_message 10300 2) = [PRet p_f 0; PSig p_f 20; PHand p_f 1 1; PRet p_f 10200; PSig p_f 10300; PHand p_f 1 2].
Proof. vm_compute. auto. Qed.

(** Before the cleaning it cannot: the observer is started again with the old time of the last sign
    of life, and the new thread ends when it first looks at the clock. *)
Theorem c118_in_vain ops s evs f o to now : ran ops s evs -> In (f, to) (pl_in s) -> watches s f o -> over o -> (to <= now - ob_last o)%Z ->
  exists s' o', ran (ops ++ [PoBody f to now]) s' (evs ++ [PRet f now]) /\ watches s' f o' /\ looping o' /\ ob_run o' = S (ob_run o) /\
    forall t, (now <= t)%Z -> exists s'' o'', ran (ops ++ [PoBody f to now; PoCheck f t]) s'' (evs ++ [PRet f now]) /\ watches s'' f o'' /\ ob_ph o'' = PhLeave.
Proof. exact (in_vain ops s evs f o to now). Qed.
Print Assumptions c118_in_vain.
Example c118_in_vain_case : exists s evs o, ran (p_pause ++ [PoEnter p_f 10000]) s evs /\ In (p_f, 10000%Z) (pl_in s) /\ watches s p_f o /\ over o /\ (10000 <= 10200 - ob_last o)%Z.
Proof. eexists. eexists. eexists. split; [vm_compute; reflexivity|]. split; [now left|]. split; [vm_compute; reflexivity|]. split; [reflexivity|vm_compute; discriminate]. Qed.

(** Once the pool was stopped while nobody was inside ObserveFile, it has no observers and nothing is
    handed over until it is started again. *)
Theorem c118_stopped ops s evs b s' evs' : ran ops s evs -> pl_on s = true -> pl_in s = [] -> ~ In PoStart b -> ran (ops ++ PoStop :: b) s' (evs ++ evs') ->
  pl_map s' = [] /\ forall f r c, ~ In (PHand f r c) evs'.
Proof. exact (stopped ops s evs b s' evs'). Qed.
Print Assumptions c118_stopped.
Example c118_stopped_case : p_view (p_live ++ PoStop :: p_call 27100 ++ p_message 27200 3) = None /\
  p_events (p_live ++ PoStop :: p_call 27100 ++ p_message 27200 3) = p_events p_live ++ [PFail p_f].
Proof. vm_compute. auto. Qed.

(** Wrong: after ObserveFile has returned true the file is watched for the timeout.  If the thread had
    timed out (the process was held in a debugger, or registrations were missing for that long) and the observer has not
    yet been removed, it is started again without resetting m_time_of_last_life_signal (ecal_memfile_pool.cpp
    99-119, 388-392): the new thread ends at once, and what the publisher sends until the next cleaning
    (up to a second) and the registration after it is missed. *)
Theorem c118_restart_refuted : exists ops s evs f to now t, steady (ops ++ [PoCheck f t]) /\ ran ops s evs /\ pl_on s = true /\ sign f now evs /\ (now <= t)%Z /\ (t - now < to)%Z /\ (forall x, In (PoEnter f x) ops -> x = to) /\
  exists s' o, ran (ops ++ [PoCheck f t]) s' evs /\ watches s' f o /\ ob_ph o = PhLeave.
Proof. exact pol_restart. Qed.
Print Assumptions c118_restart_refuted.

(** Wrong: as long as IsObserving is true a registration keeps the observer.  A thread that has left
    its loop, but has not yet said so (ecal_memfile_pool.cpp 162-163, 293), counts as observing: ObserveFile resets its
    time, returns true, and the thread ends. *)
Theorem c118_leaving_refuted : exists ops s evs f to now, steady (ops ++ [PoBody f to now]) /\ ran ops s evs /\ In (f, to) (pl_in s) /\ (exists o, watches s f o /\ ob_alive o = true) /\
  exists s' o, ran (ops ++ [PoBody f to now; PoEnd f]) s' (evs ++ [PRet f now]) /\ watches s' f o /\ over o.
Proof. exact pol_leaving. Qed.
Print Assumptions c118_leaving_refuted.

(** Wrong: a stopped pool hands nothing over.  ObserveFile looks at m_created before it takes the lock
    (ecal_memfile_pool.cpp 370-374): a call that waits for the lock during Stop starts an observer afterwards,
    which hands over contents until it times out or the pool is destroyed. *)
Theorem c118_stop_refuted : exists a b s s' evs evs' f r c, ran (a ++ [PoStop]) s evs /\ pl_on s = false /\ ~ In PoStart b /\ ran (a ++ PoStop :: b) s' (evs ++ evs') /\ In (PHand f r c) evs'.
Proof. exact pol_stop. Qed.
Print Assumptions c118_stop_refuted.
