(** C106: what a process says of itself. *)
From Verif Require Import Base Sample PrcModel PrcSpec PrcProofs.
From Verif Require Import StrModel StrSpec.
From Verif Require MonModel MonSpec DscSpec SpnModel.

(** A process that is not forked says its own id, as a number, as decimal text and in its samples,
    whatever else it does.  Partial: see c106_fork_refuted. *)
Theorem c106_own_id_partial o pid l : pid_ok pid -> Forall (fun a => is_fork a = false) l ->
  p_says l AskId (self0 o pid) = Number pid /\
  p_says l AskIdText (self0 o pid) = Words (MonModel.int_text pid) /\ MonSpec.digits_only (MonModel.int_text pid) /\ DscSpec.decimal (MonModel.int_text pid) = pid /\
  spoken_id (p_says l Register (self0 o pid)) = Some pid /\ spoken_id (p_says l Unregister (self0 o pid)) = Some pid.
Proof. exact (own_id_lemma o pid l). Qed.
Print Assumptions c106_own_id_partial.
Example c106_own_id_partial_ex : pid_ok 77 /\ Forall (fun a => is_fork a = false) px_run /\ p_says px_run AskIdText (self0 px_os 77) = Words (str "77").
Proof. split; [unfold pid_ok; lia|]. split; [repeat constructor|reflexivity]. Qed.

(** In general a process says the id it had when it first asked for it. *)
Theorem c106_id_exact o pid l a : pid_ok pid -> forks_ok l -> needs_id a = true ->
  exists q, first_pid pid (l ++ [a]) = Some q /\ pid_ok q /\
    p_says l AskId (self0 o pid) = Number q /\ p_says l AskIdText (self0 o pid) = Words (prc_number q) /\
    spoken_id (p_says l Register (self0 o pid)) = Some q /\ spoken_id (p_says l Unregister (self0 o pid)) = Some q.
Proof. exact (id_lemma o pid l a). Qed.
Print Assumptions c106_id_exact.
Example c106_id_exact_ex : forks_ok [AskHost; Forked 5; AskName] /\ p_says [AskHost; Forked 5; AskName] AskId (self0 px_os 4) = Number 5.
Proof. split; [|reflexivity]. intros p [H|[H|[H|[]]]]; try discriminate H. injection H as <-. unfold pid_ok. lia. Qed.

(** A child forked after the id was asked for goes on speaking with the id of its parent, for
    ever: parent and child are announced as one and the same process. *)
Theorem c106_fork_refuted : exists o pid child, pid_ok pid /\ pid_ok child /\ child <> pid /\
  forall l, spoken_id (p_says ([Register; Forked child] ++ l) Register (self0 o pid)) = Some pid.
Proof.
  exists px_os, 77%Z, 78%Z. split; [unfold pid_ok; lia|]. split; [unfold pid_ok; lia|]. split; [discriminate|]. intros l. unfold p_says.
  rewrite run_app, step_eq, register_eq. cbn [fst spoken_id sm_pid]. f_equal. unfold id_now.
  destruct (id_kept l (p_run [Register; Forked 78] (self0 px_os 77))) as (-> & _); [discriminate|reflexivity].
Qed.
Print Assumptions c106_fork_refuted.

(** Two threads that ask for the id as text at the same time: one of them can get no text at all. *)
Theorem c106_threads_refuted : exists pid l, pid_ok pid /\ got [] (idr_run l (idr0 pid 2)) 1.
Proof. exists 77%Z, [0; 0; 1; 1]. split; [unfold pid_ok; lia|reflexivity]. Qed.
Print Assumptions c106_threads_refuted.

(** Nothing worse than that: every thread gets the id or nothing; a single thread, or threads
    that start after somebody has asked, get the id. *)
Theorem c106_threads_partial pid n l k t : pid_ok pid ->
  (got t (idr_run l (idr0 pid n)) k -> t = [] \/ t = prc_number pid) /\
  (got t (idr_run l (idr0 pid 1)) 0 -> t = prc_number pid) /\
  (got t (idr_run l (Idr pid pid (prc_number pid) (repeat IdTest n))) k -> t = prc_number pid).
Proof.
  exact (fun P => conj (threads_lemma pid n l k t P) (conj (alone_lemma pid l t)
    (asked_before pid (repeat IdTest n) l k t (fun E => Z.lt_irrefl 0 (eq_ind pid (fun z => (0 < z)%Z) (proj1 P) 0%Z E))
       (proj2 (Forall_forall _ _) (fun x H => repeat_spec n IdTest x H))))).
Qed.
Print Assumptions c106_threads_partial.
Example c106_threads_partial_ex : got (str "77") (idr_run [0; 0; 1; 0; 1; 0] (idr0 77 2)) 1 /\ got (str "77") (idr_run [0; 0; 0; 0] (idr0 77 1)) 0.
Proof. split; reflexivity. Qed.

(** A host name, a process name or a parameter line that was said once is said ever after, whatever
    the operating system says by then. *)
Theorem c106_stays l l' s t : t <> [] ->
  (p_says l AskHost s = Words t -> p_says (l ++ AskHost :: l') AskHost s = Words t) /\
  (p_says l AskName s = Words t -> p_says (l ++ AskName :: l') AskName s = Words t) /\
  (p_says l AskPar s = Words t -> p_says (l ++ AskPar :: l') AskPar s = Words t).
Proof. exact (stays_lemma l l' s t). Qed.
Print Assumptions c106_stays.
Example c106_stays_ex : p_says px_run AskHost (self0 px_os 77) = Words (str "box") /\ o_host (z_os (p_run px_run (self0 px_os 77))) = Some (str "other").
Proof. split; reflexivity. Qed.

(** It is what the operating system says: the host name, the path of the executable as far as
    PATH_MAX bytes go, the group of the configuration or else the host name. *)
Theorem c106_truth o pid l : Forall (fun a => is_change a = false) l ->
  p_says l AskHost (self0 o pid) = Words (match o_host o with Some h => h | None => [] end) /\
  p_says l AskName (self0 o pid) = Words (match o_exe o with Some p => firstn (Z.to_nat 4096) p | None => [] end) /\
  p_says l AskPar (self0 o pid) = Words (match o_cmdline o with Some b => SpnModel.process_parameter b | None => [] end) /\
  p_says l AskGroup (self0 o pid) = Words (match o_group o with [] => match o_host o with Some h => h | None => [] end | g => g end).
Proof. exact (truth_lemma o pid l). Qed.
Print Assumptions c106_truth.
Example c106_truth_ex : Forall (fun a => is_change a = false) [Register; Forked 3] /\ p_says [Register; Forked 3] AskName (self0 px_os 77) = Words (str "/opt/bin/rec").
Proof. split; [repeat constructor|reflexivity]. Qed.

(** The parameter line is the command line of the arguments as ToCommandLine writes it. *)
Theorem c106_parameter o pid l args : Forall (fun a => is_change a = false) l -> o_cmdline o = Some (shown args) -> Forall no_zero args ->
  p_says l AskPar (self0 o pid) = Words (to_command_line args).
Proof. exact (parameter_lemma o pid l args). Qed.
Print Assumptions c106_parameter.
Example c106_parameter_ex : p_says [] AskPar (self0 px_os 77) = Words (str "rec ""a b"" """" -x").
Proof. reflexivity. Qed.

(** It reads back as exactly the arguments.  Partial: an argument with a tab or another blank has
    a space, too. *)
Theorem c106_parameter_back_partial o pid l args : Forall (fun a => is_change a = false) l -> o_cmdline o = Some (shown args) -> Forall no_zero args -> Forall sound_arg args ->
  exists t, p_says l AskPar (self0 o pid) = Words t /\ to_argv t = args.
Proof. exact (parameter_back o pid l args). Qed.
Print Assumptions c106_parameter_back_partial.
Example c106_parameter_back_partial_ex : o_cmdline px_os = Some (shown [str "rec"; str "a b"; []; str "-x"]) /\ Forall sound_arg [str "rec"; str "a b"; []; str "-x"].
Proof.
  split; [reflexivity|]. repeat apply Forall_cons; try apply Forall_nil; unfold sound_arg; [right|left; right; left; reflexivity|right|right];
  intros c H; vm_compute in H; unfold blank_char; intuition congruence.
Qed.

(** An argument with a tab is announced as two. *)
Theorem c106_parameter_back_refuted : exists o args t, o_cmdline o = Some (shown args) /\ Forall no_zero args /\
  p_says [] AskPar (self0 o 77) = Words t /\ length args = 1 /\ length (to_argv t) = 2.
Proof.
  exists (Osys None None (Some [97; 9; 98; 0]%Z) [] None []), [[97; 9; 98]%Z], [97; 9; 98]%Z. split; [reflexivity|].
  split; [repeat constructor; unfold no_zero; cbn; lia|]. repeat split.
Qed.
Print Assumptions c106_parameter_back_refuted.

(** The parameters of the task are never there: nothing stores them, the answer is always empty. *)
Theorem c106_task_refuted o pid l sep : p_says l (AskTask sep) (self0 o pid) = Words [].
Proof. exact (task_lemma o pid l sep). Qed.
Print Assumptions c106_task_refuted.

(** Were they there, they would be written with the separator between them, if the first one is
    not empty. *)
Theorem c106_task_line_partial sep p ps : p <> [] -> task_line sep [] (p :: ps) = str_join sep (p :: ps).
Proof. exact (task_line_lemma sep p ps). Qed.
Print Assumptions c106_task_line_partial.
Example c106_task_line_partial_ex : task_line (str ", ") [] [str "a"; []; str "b"] = str "a, , b".
Proof. reflexivity. Qed.

(** Empty parameters at the beginning would leave no trace. *)
Theorem c106_task_line_refuted : exists sep ps qs, length ps <> length qs /\ task_line sep [] ps = task_line sep [] qs /\ str_join sep ps <> str_join sep qs.
Proof. exists (str ","), [[]; str "a"], [str "a"]. split; [discriminate|]. split; [reflexivity|discriminate]. Qed.
Print Assumptions c106_task_line_refuted.

(** Every registration tells the severity and the level set last, the text given last, and the
    components started since the last shutdown. *)
Theorem c106_state o pid l : exists m, p_says l Register (self0 o pid) = Says m /\ sm_cmd m = bct_reg_process /\
  (pr_severity (sm_process m), pr_severity_level (sm_process m)) = latest_level (0, 1)%Z l /\
  pr_info (sm_process m) = latest_info [] l /\ pr_comp_state (sm_process m) = to_int32 (started 0 l) /\
  pr_comp_info (sm_process m) = component_text (started 0 l).
Proof. exact (state_lemma o pid l). Qed.
Print Assumptions c106_state.
Example c106_state_ex : latest_level (0, 1)%Z px_run = (3, 4)%Z /\ latest_info [] px_run = str "fine" /\ pr_comp_info (sm_process (px_sample px_run Register)) = str "pub|sub|log|time".
Proof. repeat split. Qed.

(** The text of the components names exactly those of publisher, subscriber, logging and time that
    were started.  Partial: see c106_components_refuted. *)
Theorem c106_components_partial mask : component_text mask = str_join (str "|") (named mask) /\ str_split (str "|") (component_text mask) = named mask.
Proof. exact (component_lemma mask). Qed.
Print Assumptions c106_components_partial.
Example c106_components_partial_ex : named 35 = [str "pub"; str "sub"; str "time"].
Proof. reflexivity. Qed.

(** Services and monitoring are never named. *)
Theorem c106_components_refuted : component_text 12 = [] /\ forall mask, component_text (Z.lor mask 12) = component_text mask.
Proof. exact component_blind. Qed.
Print Assumptions c106_components_refuted.

(** The process is unregistered under the host, the id and the name it was registered under, thus
    under the same key of the monitoring.  Partial: the operating system gave the names when it was
    registered. *)
Theorem c106_same_key_partial l l' s m m' : p_says l Register s = Says m -> p_says (l ++ Register :: l') Unregister s = Says m' ->
  pid_ok (z_pid (p_run l s)) -> pr_pname (sm_process m) <> [] -> sm_host m <> [] ->
  sm_pid m' = sm_pid m /\ sm_host m' = sm_host m /\ pr_pname (sm_process m') = pr_pname (sm_process m) /\
  MonModel.process_key m' = MonModel.process_key m /\ sm_cmd m' = bct_unreg_process.
Proof. exact (key_lemma l l' s m m'). Qed.
Print Assumptions c106_same_key_partial.
Example c106_same_key_partial_ex : MonModel.process_key (px_sample px_run Unregister) = str "/opt/bin/rec77" /\ sm_host (px_sample px_run Unregister) = str "box".
Proof. split; reflexivity. Qed.

(** If the name of the executable could not be read at first, the process is registered under one
    key and unregistered under another. *)
Theorem c106_same_key_refuted : exists l l' s m m', p_says l Register s = Says m /\ p_says (l ++ Register :: l') Unregister s = Says m' /\
  pid_ok (z_pid (p_run l s)) /\ MonModel.process_key m' <> MonModel.process_key m.
Proof.
  exists [], [Change px_os], (self0 px_quiet 77). eexists. eexists. split; [reflexivity|]. split; [reflexivity|]. split; [unfold pid_ok; cbn; lia|]. vm_compute. discriminate.
Qed.
Print Assumptions c106_same_key_refuted.

(** Started with an empty name, the unit is called by the last part of the path of its executable. *)
Theorem c106_unit_derived s p c : p_says [] AskName s = Words p -> forall n, p_says [StartUp (Some []) c] AskUnit s = Words n <-> base_name p n.
Proof. exact (derived_lemma s p c). Qed.
Print Assumptions c106_unit_derived.
Example c106_unit_derived_ex : p_says px_run AskUnit (self0 px_os 77) = Words (str "rec").
Proof. reflexivity. Qed.

(** Otherwise it has the name given last; refused names change nothing. *)
Theorem c106_unit_given l s : Forall keeps_unit l -> p_says l AskUnit s = Words (given_unit (z_unit s) l).
Proof. exact (unit_lemma l s). Qed.
Print Assumptions c106_unit_given.
Example c106_unit_given_ex : let l := [StartUp None 1; SetUnit (Some (str "a")); SetUnit (Some []); StartUp (Some (str "b")) 2; SetUnit None] in
  Forall keeps_unit l /\ p_says l AskUnit (self0 px_os 77) = Words (str "b") /\ p_says l (SetUnit (Some [])) (self0 px_os 77) = Number (-1).
Proof. split; [repeat constructor|split; reflexivity]. Qed.

(** Started without a name, the unit has none: it is announced with an empty name, not with that
    of its executable. *)
Theorem c106_unit_refuted o pid c : p_says [StartUp None c] AskUnit (self0 o pid) = Words [] /\
  exists m, p_says [StartUp None c] Register (self0 o pid) = Says m /\ pr_uname (sm_process m) = [].
Proof. split; [reflexivity|]. eexists. split; [unfold p_says; rewrite step_eq, register_eq; reflexivity|reflexivity]. Qed.
Print Assumptions c106_unit_refuted.

(** The size of a buffer in words is the true one cut to a whole number of its unit. *)
Theorem c106_buffer n : (0 <= n)%Z -> let (v, u) := buffer_parts n in
  In u [str "byte"; str "kByte"; str "MByte"] /\ (v * unit_size u <= n < (v + 1) * unit_size u)%Z /\ (u <> str "MByte" -> v <= 1024)%Z /\
  (u <> str "byte" -> 1 <= v)%Z.
Proof. exact (buffer_lemma n). Qed.
Print Assumptions c106_buffer.
Example c106_buffer_ex : buffer_text 5242880 = str "5 MByte" /\ buffer_text 1024 = str "1024 byte" /\ buffer_text 3000 = str "2 kByte".
Proof. repeat split. Qed.

(** The samples tell what the process answers to each question at that moment, and how the time
    is synchronised. *)
Theorem c106_sample l s m : p_says l Register s = Says m ->
  p_says l AskId s = Number (sm_pid m) /\ p_says l AskHost s = Words (sm_host m) /\ p_says l AskGroup s = Words (pr_hgname (sm_process m)) /\
  p_says l AskName s = Words (pr_pname (sm_process m)) /\ p_says l AskUnit s = Words (pr_uname (sm_process m)) /\
  p_says l AskPar s = Words (pr_pparam (sm_process m)) /\ pr_version (sm_process m) = o_version (z_os (p_run l s)) /\
  tells_time (o_gate (z_os (p_run l s))) (pr_tsync_state (sm_process m)) (pr_tsync_mod (sm_process m)).
Proof. exact (sample_lemma l s m). Qed.
Print Assumptions c106_sample.
Example c106_sample_ex : pr_hgname (sm_process (px_sample px_run Register)) = str "grp" /\ pr_tsync_state (sm_process (px_sample [AskId] Register)) = 2%Z.
Proof. split; reflexivity. Qed.

Theorem c106_farewell l s m : p_says l Unregister s = Says m ->
  p_says l AskId s = Number (sm_pid m) /\ p_says l AskHost s = Words (sm_host m) /\
  p_says l AskName s = Words (pr_pname (sm_process m)) /\ p_says l AskUnit s = Words (pr_uname (sm_process m)).
Proof. exact (unregister_lemma l s m). Qed.
Print Assumptions c106_farewell.
Example c106_farewell_ex : pr_uname (sm_process (px_sample px_run Unregister)) = str "rec".
Proof. reflexivity. Qed.
