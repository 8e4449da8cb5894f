(** C75 - C78: managers of the services, their threads, the acceptor, calls from inside methods. *)
From Coq Require Import List Bool Arith.
From Verif Require Import Base ManModel ManSpec ManProofs.
Import ListNotations.

(** C75: the table of a manager lists exactly the sessions that are alive or just being deleted,
    each under its own address, although addresses are used again. *)
Theorem c75_listed : forall ms s a i,
  man_run manager_init ms = Some s ->
  (aget a (mn_table s) = Some i <-> (exists r, alive_at s a i r) \/ dying_at s a i).
Proof. exact listed_lemma. Qed.
Print Assumptions c75_listed.

Example c75_listed_case :
  exists s, man_run manager_init [NCreate 5; NCreate 6; NRelease 5; NErase 5; NFree 5; NCreate 5] = Some s
  /\ aget 5 (mn_table s) = Some 2 /\ alive_at s 5 2 true.
Proof. eexists. split; [vm_compute; reflexivity|]. split; reflexivity. Qed.

(** C75: the count of a manager is the number of the sessions not yet removed by their deleters. *)
Theorem c75_count : forall ms s,
  man_run manager_init ms = Some s ->
  man_count s
  = length (filter (fun e => match ob_phase (snd e) with PErased => false | _ => true end) (mn_heap s)).
Proof. exact count_lemma. Qed.
Print Assumptions c75_count.

Example c75_count_case :
  exists s, man_run manager_init [NCreate 5; NCreate 6; NCreate 7; NRelease 5; NErase 5; NRelease 6] = Some s
  /\ man_count s = 2 /\ length (mn_heap s) = 3.
Proof. eexists. split; [vm_compute; reflexivity|]. split; reflexivity. Qed.

(** C75: when a stop of the manager has gone through its copy, no session that is alive runs. *)
Theorem c75_stopped : forall ms s t,
  man_run manager_init ms = Some s -> stop_done s t ->
  forall a i r, alive_at s a i r -> r = false.
Proof. exact stopped_lemma. Qed.
Print Assumptions c75_stopped.

Example c75_stopped_case :
  exists s, man_run manager_init
              [NCreate 5; NCreate 6; NStopMark 1; NRelease 5; NErase 5; NFree 5; NCreate 5; NStopOne 1; NStopOne 1]
            = Some s
  /\ stop_done s 1 /\ alive_at s 6 1 false /\ aget 5 (mn_heap s) = None.
Proof. eexists. split; [vm_compute; reflexivity|]. repeat split; reflexivity. Qed.

(** C75: no session is created once the stop has set its flag. *)
Theorem c75_no_new : forall before t after s1 s,
  man_run manager_init (before ++ [NStopMark t]) = Some s1 ->
  man_run s1 after = Some s ->
  mn_next s = mn_next s1.
Proof. exact no_new_lemma. Qed.
Print Assumptions c75_no_new.

Example c75_no_new_case :
  exists s1 s, man_run manager_init ([NCreate 5] ++ [NStopMark 1]) = Some s1
  /\ man_run s1 [NCreate 6; NCreate 7] = Some s /\ length (mn_heap s) = 1.
Proof. do 2 eexists. split; [vm_compute; reflexivity|]. split; [vm_compute; reflexivity|]. reflexivity. Qed.

(** C76: once ServiceManager::stop has returned there is no manager, no io thread and no running
    session, and none comes into being before the next reset. *)
Theorem c76_quiet : forall n before t after s,
  sw_run (sw_init n) (before ++ SDone t :: after) = Some s -> ~ In SReset after ->
  sw_exists s = false /\ sw_sessions s = 0.
Proof. exact quiet_lemma. Qed.
Print Assumptions c76_quiet.

Example c76_quiet_case :
  exists s, sw_run (sw_init 2)
    ([GCheck 4; GLocked 4; GOpen 4; GOpen 1; GCheck 5; SEnter 4; SMark 4; IExit 0; IExit 1; IExit 2; IExit 3]
     ++ SDone 4 :: [GLocked 5; GOpen 5; GCheck 4]) = Some s.
Proof. eexists. vm_compute. reflexivity. Qed.

(** C76: a stop can be completed exactly if no io thread is inside get_client_manager,
    get_server_manager or stop. *)
Theorem c76_finishes_exactly_partial : forall n ms s t,
  sw_run (sw_init n) ms = Some s -> at_pos s t TJoins ->
  ((exists more s', sw_run s more = Some s' /\ In (SDone t) more)
   <-> sw_exists s = false \/ unhindered s).
Proof. exact finish_lemma. Qed.
Print Assumptions c76_finishes_exactly_partial.

Example c76_finishes_case :
  exists s, sw_run (sw_init 1) [GCheck 4; GLocked 4; GOpen 4; SEnter 4; SMark 4; IExit 2] = Some s
  /\ at_pos s 4 TJoins /\ sw_exists s = true.
Proof. eexists. split; [vm_compute; reflexivity|]. split; [exists false; reflexivity|reflexivity]. Qed.

(** C76 refuted: a method that passed the check of get_client_manager just before the stop took the
    mutex waits for it, the stop waits for the method's thread, and neither ever goes on. *)
Theorem c76_deadlock_refuted :
  exists ms s, sw_run (sw_init 1) ms = Some s /\ at_pos s 4 TJoins /\ at_pos s 0 TPassed
  /\ forall more s', sw_run s more = Some s' -> at_pos s' 4 TJoins /\ sw_lock s' = Some 4.
Proof.
  exists [GCheck 4; GLocked 4; GCheck 0; SEnter 4; SMark 4]. eexists.
  split; [vm_compute; reflexivity|]. split; [exists false; reflexivity|]. split; [exists true; reflexivity|].
  exact (fun more s' R => deadlock_lemma 1 [GCheck 4; GLocked 4; GCheck 0; SEnter 4; SMark 4] _ 4 0 TPassed
           eq_refl (ex_intro _ false eq_refl) eq_refl eq_refl (or_introl eq_refl) more s' R).
Qed.
Print Assumptions c76_deadlock_refuted.

(** C76 refuted: a stop called from inside a method joins its own thread. *)
Theorem c76_self_refuted :
  exists ms s, sw_run (sw_init 1) ms = Some s /\ at_pos s 0 TJoins
  /\ forall more s', sw_run s more = Some s' -> at_pos s' 0 TJoins /\ sw_lock s' = Some 0.
Proof.
  exists [GCheck 4; GLocked 4; SEnter 0; SMark 0]. eexists.
  split; [vm_compute; reflexivity|]. split; [exists true; reflexivity|].
  exact (fun more s' R => deadlock_lemma 1 [GCheck 4; GLocked 4; SEnter 0; SMark 0] _ 0 0 TJoins
           eq_refl (ex_intro _ true eq_refl) eq_refl eq_refl (or_intror (or_intror eq_refl)) more s' R).
Qed.
Print Assumptions c76_self_refuted.

(** C77: after the stop of a server the only session that may still run is the one whose connection
    was accepted, but not yet handled, when the acceptor was closed. *)
Theorem c77_accept_partial : forall before mid after s0 s,
  ac_run acceptor_init before = Some s0 ->
  ac_run s0 (AClose :: mid ++ AStopAll :: after) = Some s ->
  forall i, In i (ac_running s) -> ac_ready s0 = Some i.
Proof. exact accept_lemma. Qed.
Print Assumptions c77_accept_partial.

Example c77_accept_case :
  exists s0 s, ac_run acceptor_init [AConnect 1; AHandle; AConnect 2; AHandle; ABreak 1; AConnect 3] = Some s0
  /\ ac_run s0 (AClose :: [AHandle] ++ AStopAll :: [ABreak 3]) = Some s /\ ac_running s = [].
Proof. do 2 eexists. split; [vm_compute; reflexivity|]. split; [vm_compute; reflexivity|]. reflexivity. Qed.

(** C77: until it is closed, the acceptor takes the next client as soon as the one before is handled. *)
Theorem c77_next_client : forall ms s i, ac_run acceptor_init ms = Some s -> ~ In AClose ms -> ac_ready s = None ->
  ~ In i (ac_running s) -> exists s', ac_run s [AConnect i; AHandle] = Some s' /\ In i (ac_running s').
Proof. exact next_client_lemma. Qed.
Print Assumptions c77_next_client.

Example c77_next_client_case : exists s, ac_run acceptor_init [AConnect 1; AHandle; ABreak 1; AConnect 2; AHandle] = Some s
  /\ ac_ready s = None /\ ac_running s = [2].
Proof. eexists. split; [vm_compute; reflexivity|]. split; reflexivity. Qed.

(** C77: nobody waits on a closed acceptor. *)
Theorem c77_closed_waits : forall ms s, ac_run acceptor_init ms = Some s -> ac_waiting s = true -> ac_open s = true.
Proof. exact closed_waits_lemma. Qed.
Print Assumptions c77_closed_waits.

Example c77_closed_waits_case : exists s, ac_run acceptor_init [AConnect 1; AClose; AHandle] = Some s /\ ac_waiting s = false.
Proof. eexists. split; [vm_compute; reflexivity|]. reflexivity. Qed.

(** C77 refuted: that session is started after the stop and runs until its client leaves. *)
Theorem c77_late_refuted :
  exists s, ac_run acceptor_init [AConnect 1; AClose; AStopAll; AHandle] = Some s
  /\ forall ms s', ac_run s ms = Some s' -> ~ In AStopAll ms -> ~ In (ABreak 1) ms -> In 1 (ac_running s').
Proof.
  eexists. split; [vm_compute; reflexivity|].
  exact (fun ms s' E => stays_lemma ms _ s' 1 E (or_introl eq_refl)).
Qed.
Print Assumptions c77_late_refuted.

(** C78: as long as fewer requests than io threads are unfinished, methods that make blocking calls
    all come to their end. *)
Theorem c78_progress_partial : forall ms s,
  pl_run pool_init ms = Some s -> unfinished s < io_threads ->
  exists more s',
    pl_run s more = Some s' /\ ~ In LArrive more /\ unfinished s' = 0 /\ pl_next s' = pl_next s.
Proof. exact pool_lemma. Qed.
Print Assumptions c78_progress_partial.

Example c78_progress_case :
  exists s, pl_run pool_init [LArrive; LArrive; LTake; LArrive; LAnswer 0; LTake; LTake] = Some s
  /\ unfinished s = 3 /\ pl_blocked s = [0; 1; 2].
Proof. eexists. split; [vm_compute; reflexivity|]. split; reflexivity. Qed.

(** C78 refuted: four methods that wait for blocking calls occupy all io threads; no answer is ever
    handled again. *)
Theorem c78_starved_refuted :
  exists ms s, pl_run pool_init ms = Some s /\ length (pl_blocked s) = 4
  /\ forall more s', pl_run s more = Some s' -> pl_blocked s' = pl_blocked s /\ pl_done s' = [].
Proof.
  exists [LArrive; LArrive; LArrive; LArrive; LTake; LTake; LTake; LTake]. eexists.
  split; [vm_compute; reflexivity|]. split; [reflexivity|].
  exact (fun more s' E => starved_lemma more (mkPool [] [0;1;2;3] [0;1;2;3] [] 4) s' eq_refl E).
Qed.
Print Assumptions c78_starved_refuted.
