(** C115: asking other processes to shut down. *)
From Coq Require Import Permutation.
From Verif Require Import Base Sample EvtModel NamModel NamSpec ShtModel ShtSpec ShtProofs.

(** Whole calls one after another: the answers of Ok are those of a process that hears nothing before
    its first call, hears the first request after it, and hears nothing any more from then on. *)
Theorem c115_whole_calls : forall cs, NoDup (call_reqs cs) ->
  exists s, sw_run cs sevt_init = Some (s, snd (hear_run cs Unheard)).
Proof. exact whole_lemma. Qed.
Print Assumptions c115_whole_calls.
Example c115_whole_calls_ex : NoDup (call_reqs ex_calls) /\
  snd (hear_run ex_calls Unheard) = [true; false; true; true; true; false] /\
  match sw_run ex_calls sevt_init with Some (_, l) => l | None => [] end = [true; false; true; true; true; false].
Proof. split; [|split; reflexivity]. repeat constructor; cbn; intuition discriminate. Qed.

(** Steps of calls and requests in any order: every answer no has a request of its own. *)
Theorem c115_reason : forall ops s l,
  se_run ops sevt_init = Some (s, l) -> noes l <= length (nodup Nat.eq_dec (asks ops)).
Proof. exact reason_lemma. Qed.
Print Assumptions c115_reason.
Example c115_reason_ex : exists s, se_run ex_two sevt_init = Some (s, [true; false; false; true]) /\
  noes [true; false; false; true] = 2 /\ nodup Nat.eq_dec (asks ex_two) = [1; 0].
Proof. eexists. split; [vm_compute; reflexivity|]. split; reflexivity. Qed.

(** A request that begins when the name leads to the file of the process is heard: once the event is
    set, the next answer of Ok is no, whatever else happens. *)
Theorem c115_heard : forall ops1 s1 l1 r ops2 s2 l2,
  se_run ops1 sevt_init = Some (s1, l1) -> is_listening s1 -> not_begun s1 r ->
  se_run (SAsk r :: ops2) s1 = Some (s2, l2) -> In (SAsk r) ops2 -> ~ In SDie ops2 -> ~ In (SGone r) ops2 -> ~ In false l2 ->
  exists s3, se_step SOk s2 = Some (s3, Some false).
Proof. exact heard_lemma. Qed.
Print Assumptions c115_heard.
Example c115_heard_ex : exists s1 s2, se_run ex_opened sevt_init = Some (s1, [true]) /\ is_listening s1 /\ not_begun s1 0 /\
  se_run (SAsk 0 :: [SAsk 1; SOk; SAsk 0]) s1 = Some (s2, [true]).
Proof.
  eexists _, _. split; [vm_compute; reflexivity|]. split; [|split; [split; [reflexivity|intro H; apply H; reflexivity]|vm_compute; reflexivity]].
  exists 0. split; [|reflexivity]. split; [reflexivity|]. intros [|[|c]] ow b; discriminate.
Qed.

(** When a request made after the process opened its event is over, and no other is under way, the
    process answers no at most once more, with its first answer, however many requests follow. *)
Theorem c115_once : forall ops1 s1 l1 id r ops2 s2 l2 ops3 s3 l3,
  se_run ops1 sevt_init = Some (s1, l1) -> has_opened s1 id -> not_begun s1 r ->
  se_run ops2 s1 = Some (s2, l2) -> ~ In SDie ops2 -> ~ In (SGone r) ops2 -> finished s2 r -> (forall x, ~ under_way s2 x) ->
  se_run ops3 s2 = Some (s3, l3) -> ~ In SDie ops3 ->
  ~ In false (tl l3).
Proof. exact once_lemma. Qed.
Print Assumptions c115_once.
Example c115_once_ex : exists s1 s2 s3, se_run ex_opened sevt_init = Some (s1, [true]) /\ has_opened s1 0 /\ not_begun s1 0 /\
  se_run [SAsk 0; SAsk 0; SAsk 0] s1 = Some (s2, []) /\ finished s2 0 /\ (forall x, ~ under_way s2 x) /\
  se_run [SOk; SAsk 1; SAsk 1; SAsk 1; SAsk 1; SAsk 1; SOk; SAsk 1; SOk] s2 = Some (s3, [false; true; true]).
Proof.
  eexists _, _, _. split; [vm_compute; reflexivity|]. split; [split; [reflexivity|intros [|[|c]] ow b; discriminate]|].
  split; [split; [reflexivity|intro H; apply H; reflexivity]|]. split; [vm_compute; reflexivity|]. split; [reflexivity|].
  split; [|vm_compute; reflexivity]. intros [|x] H; apply H; reflexivity.
Qed.

(** The events of different processes have nothing to do with each other. *)
Theorem c115_each_process : forall ops s s' l pid, a_pid pid -> (forall o, In o ops -> a_pid (fst o)) ->
  sh_run ops s = Some (s', l) ->
  se_run (ops_of pid ops) (evt_of s (shutdown_event pid)) = Some (evt_of s' (shutdown_event pid), answers_of pid l).
Proof. exact project_lemma. Qed.
Print Assumptions c115_each_process.
Example c115_each_process_ex : exists s, sh_run [(10, SOk); (11, SAsk 0); (10, SOk)]%Z [] = Some (s, []) /\
  ops_of 10 [(10, SOk); (11, SAsk 0); (10, SOk)]%Z = [SOk; SOk] /\ a_pid 10 /\ a_pid 11.
Proof. eexists. split; [vm_compute; reflexivity|]. split; [reflexivity|]. split; split; reflexivity || discriminate. Qed.

(** ShutdownProcess with a name addresses the processes of this host with this process name. *)
Theorem c115_by_name : forall host name l pid,
  In pid (ask_name host name l) <-> exists p, In p l /\ mp_pid p = pid /\ mp_pname p = name /\ mp_host p = host.
Proof. exact ask_name_in. Qed.
Print Assumptions c115_by_name.
Example c115_by_name_ex : ask_name ex_host (str "/usr/bin/app") ex_procs = [10%Z].
Proof. reflexivity. Qed.

(** Every process of this host is addressed by exactly one of ShutdownProcesses and ShutdownCore, and
    no process of another host is. *)
Theorem c115_all_local : forall host l,
  Permutation (ask_users host l ++ ask_core host l) (map mp_pid (filter (fun p => eqb (mp_host p) host) l)).
Proof. exact split_lemma. Qed.
Print Assumptions c115_all_local.
Example c115_all_local_ex : ask_users ex_host ex_procs = [10%Z; 12%Z] /\ ask_core ex_host ex_procs = [11%Z].
Proof. split; reflexivity. Qed.

(** ShutdownCore addresses exactly the processes of this host whose unit name is one of the nine. *)
Theorem c115_core : forall host l pid, In pid (ask_core host l) <-> exists p, In p l /\ mp_pid p = pid /\ In (mp_uname p) core_units /\ mp_host p = host.
Proof. exact ask_core_in. Qed.
Print Assumptions c115_core.
Example c115_core_ex : ask_core ex_host ex_procs = [11%Z].
Proof. reflexivity. Qed.

(** One call addressing many processes: those that have called Ok and were never asked answer no at
    their next call; those that have not called Ok and those that have been asked do not notice;
    nothing changes for the others. *)
Theorem c115_one_call : forall pids r s (h : Z -> hearing),
  (forall p, a_pid p -> hears s p r (h p)) -> (forall p, In p pids -> a_pid p) ->
  exists s', ask_all r pids s = Some s' /\
    forall p, a_pid p ->
      (In p pids -> h p = Listening -> exists e, ok_call 5 (evt_of s' (shutdown_event p)) = Some (e, false)) /\
      (In p pids -> h p = Unheard \/ h p = Deaf -> exists e, ok_call 5 (evt_of s' (shutdown_event p)) = Some (e, true)) /\
      (~ In p pids -> evt_of s' (shutdown_event p) = evt_of s (shutdown_event p)).
Proof. exact ask_all_lemma. Qed.
Print Assumptions c115_one_call.
Example c115_one_call_ex :
  hears ex_sys 10 0 Listening /\ hears ex_sys 11 0 Listening /\ hears ex_sys 12 0 Listening /\ hears ex_sys 13 0 Unheard /\
  match ask_all 0 (ask_users ex_host ex_procs) ex_sys with
  | Some s => map (fun p => match ok_call 5 (evt_of s (shutdown_event p)) with Some (_, b) => b | None => true end) [10; 11; 12; 13]%Z
  | None => []
  end = [false; true; false; true].
Proof.
  split; [|split; [|split; [|split; [|vm_compute; reflexivity]]]].
  1-3: exists [WOk], [true]; (split; [vm_compute; reflexivity|]); (split; [constructor|]); (split; [intros r []|reflexivity]).
  exists [], []. split; [vm_compute; reflexivity|]. split; [constructor|]. split; [intros r []|reflexivity].
Qed.

(** A process that is asked before its first call of Ok never learns of it: ShutdownProcess creates the
    event, sets it and, having opened it as its owner, deletes it again; the process then creates a
    new one. *)
Theorem c115_early_refuted : exists s, se_run (six 0 ++ ex_opened) sevt_init = Some (s, [true]) /\ finished s 0.
Proof. exact early_counterexample. Qed.
Print Assumptions c115_early_refuted.

(** A process can be asked only once: ShutdownProcess closes the event as its owner, which deletes the
    name; the process keeps the deleted file (it opens the event only once), and everybody who asks
    it later creates and deletes a new file.  So a process that did not stop after the first no (or one thread of which got the only no)
    never gets another one. *)
Theorem c115_again_refuted : exists s,
  se_run (ex_opened ++ six 0 ++ [SOk] ++ six 1 ++ [SOk]) sevt_init = Some (s, [true; false; true]) /\ finished s 0 /\ finished s 1.
Proof. exact again_counterexample. Qed.
Print Assumptions c115_again_refuted.

(** A process whose first call of Ok runs while somebody asks it can be left without an event: both find
    no event, the other one creates it first, and the handle of the process stays empty for ever (it counts as
    valid, so it is not opened again).  From then on Ok answers yes whatever happens. *)
Theorem c115_null_refuted : exists s, se_run [SOk; SAsk 0; SAsk 0; SOk] sevt_init = Some (s, []) /\
  forall ops s' l, ~ In SDie ops -> se_run ops s = Some (s', l) -> ~ In false l.
Proof. exact null_lemma. Qed.
Print Assumptions c115_null_refuted.

(** Such a race can also end the asked process, or the one that asks, with SIGBUS: one opens the file
    the other has created but not given a size yet. *)
Theorem c115_fault_refuted :
  (exists s l, se_run [SAsk 0; SAsk 0; SOk] sevt_init = Some (s, l) /\ se_step SOk s = None) /\
  (exists s l, se_run [SOk; SOk; SAsk 0] sevt_init = Some (s, l) /\ se_step (SAsk 0) s = None).
Proof. exact fault_lemma. Qed.
Print Assumptions c115_fault_refuted.

(** While one request is still creating the event, the process can have opened it already; a second
    request sets it, and the first one clears it again with the last step of creating it: the second request is lost. *)
Theorem c115_cleared_refuted : exists s1 s2 s3 l1 id,
  se_run [SAsk 0; SAsk 0; SAsk 0; SOk; SOk] sevt_init = Some (s1, l1) /\
  ephase_of (se_sys s1) 0 = EOpened true id false /\ es_link (se_sys s1) = Some id /\ not_begun s1 1 /\
  se_run [SAsk 1; SAsk 1; SAsk 1; SAsk 0; SOk] s1 = Some (s2, [true]) /\ finished s2 1 /\
  se_step SOk s2 = Some (s3, Some true).
Proof. exact cleared_lemma. Qed.
Print Assumptions c115_cleared_refuted.

(** The event of a process that ends is not deleted, so a request made to it can stop the next process
    that gets the same process id. *)
Theorem c115_next_process_refuted : exists s,
  se_run (ex_opened ++ [SAsk 0; SDie; SOk; SOk; SAsk 0; SOk]) sevt_init = Some (s, [true; true; false]).
Proof. exact next_process_lemma. Qed.
Print Assumptions c115_next_process_refuted.

(** ShutdownProcess(unit_name) and eCAL_Util_ShutdownUnitName are documented to take the unit name of a
    process, but compare it with the process name (the path of its program): a process with this unit
    name is not addressed, and another one whose program has this name is. *)
Theorem c115_unit_name_refuted :
  (exists p, In p ex_procs /\ mp_uname p = str "app" /\ mp_host p = ex_host /\ ~ In (mp_pid p) (ask_name ex_host (str "app") ex_procs)) /\
  ask_name ex_host (str "app") ex_procs = [12%Z].
Proof. exact unit_name_lemma. Qed.
Print Assumptions c115_unit_name_refuted.
