(** C104: starting programs. *)
From Verif Require Import Base Sample StrModel StrSpec SpnModel SpnSpec SpnProofs.

(** Whatever fails and however caller and grandchild interleave: if the lock file could be made and
    no signal interrupts the caller, a process id is returned only if the program was loaded, and it
    is the program's. *)
Theorem c104_success_is_true e l p : sane e -> e_lock e = true -> uninterrupted l -> returned (s_run e l) p -> p <> 0%Z ->
  p = e_gpid e /\ loaded (s_run e l) /\ e_exec e = 0%Z.
Proof. exact (sound_lemma e l p). Qed.
Print Assumptions c104_success_is_true.
Example c104_success_is_true_ex : returned (s_run sp_ok sp_run) 77 /\ loaded (s_run sp_ok sp_run) /\ returned (s_run sp_enoent sp_run) 0.
Proof. vm_compute. auto. Qed.

(** A program that cannot be executed is never loaded. *)
Theorem c104_never_loaded e l : sane e -> e_exec e <> 0%Z -> ~ loaded (s_run e l).
Proof. exact (failure_lemma e l). Qed.
Print Assumptions c104_never_loaded.
Example c104_never_loaded_ex : sane sp_enoent /\ e_exec sp_enoent <> 0%Z.
Proof. repeat split; vm_compute; congruence. Qed.

(** If no call fails and the five seconds suffice, the program's process id is returned. *)
Theorem c104_complete e l z : sane e -> healthy e -> e_exec e = 0%Z -> in_time l -> uninterrupted l -> returned (s_run e l) z -> z = e_gpid e.
Proof. exact (complete_lemma e l z). Qed.
Print Assumptions c104_complete.
Example c104_complete_ex : healthy sp_ok /\ in_time sp_run /\ uninterrupted sp_run /\ returned (s_run sp_ok sp_run) 77.
Proof. repeat split; auto; intros C; repeat destruct C as [C|C]; try discriminate; contradiction. Qed.

(** StartProcess returns: at most 20 steps are taken by everybody together, and until it has
    returned a step other than a signal is possible - without the timeout if no call fails. *)
Theorem c104_returns e l : sane e ->
  (busy e l spawn0 -> length l <= 20) /\
  (m_at (s_run e l) <> MDone -> exists a, moves e a (s_run e l) /\ a <> AIntr /\ a <> AEnd) /\
  (healthy e -> in_time l -> uninterrupted l -> m_at (s_run e l) <> MDone -> moves e AMain (s_run e l) \/ moves e AGrand (s_run e l)).
Proof. intros S. exact (conj (ends_lemma e l S) (conj (progress_lemma e l S) (prompt_lemma e l S))). Qed.
Print Assumptions c104_returns.
Example c104_returns_ex : busy sp_ok sp_late spawn0 /\ m_at (s_run sp_ok sp_late) = MDone /\ g_at (s_run sp_ok sp_late) = GRuns.
Proof. vm_compute. repeat split; discriminate. Qed.

(** After a process id was returned both names are gone for good, and the grandchild is not stuck;
    the FIFO's name is gone whenever the first fork succeeded. *)
Theorem c104_clean e l z : sane e -> returned (s_run e l) z ->
  (z <> 0%Z -> f_name (s_run e l) = false /\ l_name (s_run e l) = false) /\
  (z <> 0%Z -> moves e AGrand (s_run e l) \/ loaded (s_run e l) \/ g_at (s_run e l) = GDead) /\
  (e_fork1 e = true -> f_name (s_run e l) = false).
Proof. intros S R. exact (conj (clean_lemma e l z S R) (conj (not_stuck_lemma e l z S R) (fun F => fifo_lemma e l z S F R))). Qed.
Print Assumptions c104_clean.
Example c104_clean_ex : f_name (s_run sp_ok [AMain]) = true /\ f_name (s_run sp_ok sp_run) = false /\ l_name (s_run sp_ok sp_run) = false.
Proof. vm_compute. auto. Qed.

(** A failed second fork, a missing working directory or a terminal emulator that never starts the
    stub is noticed by the five seconds only. *)
Theorem c104_waits_in_vain e l : e_mkfifo e = true -> e_fork1 e = true -> (e_fork2 e = false \/ e_chdir e = false \/ e_term e = TIdle) ->
  in_time l -> uninterrupted l -> m_at (s_run e l) <> MDone.
Proof. exact (slow_lemma e l). Qed.
Print Assumptions c104_waits_in_vain.
Example c104_waits_in_vain_ex : m_at (s_run sp_no_chdir sp_run) = MSelect /\ returned (s_run sp_no_chdir sp_late) 0 /\
  m_at (s_run (with_terminal TIdle sp_ok) (sp_run ++ sp_run)) = MSelect.
Proof. vm_compute. auto. Qed.

(** A terminal emulator that cannot be executed is noticed at once: 0 is returned, without the
    timeout, and nothing is left running. *)
Theorem c104_terminal_missing e l : healthy (with_terminal TNone e) -> e_term e = TMissing -> in_time l -> uninterrupted l ->
  (forall z, returned (s_run e l) z -> z = 0%Z /\ g_at (s_run e l) = GDead) /\
  (m_at (s_run e l) <> MDone -> moves e AMain (s_run e l) \/ moves e AGrand (s_run e l)).
Proof. exact (missing_lemma e l). Qed.
Print Assumptions c104_terminal_missing.
Example c104_terminal_missing_ex : healthy (with_terminal TNone (with_terminal TMissing sp_ok)) /\ returned (s_run (with_terminal TMissing sp_ok) sp_run) 0 /\
  g_at (s_run (with_terminal TMissing sp_ok) [AMain; AGrand; AGrand; AGrand]) = GZeroing.
Proof. repeat split; auto. Qed.
(** A terminal emulator that executes what follows its own arguments makes the stub execute the same
    arguments as without it, with the caller's FIFO and lock file. *)
Theorem c104_terminal_arguments t fifo lock name args :
  stub_main (skipn (length (to_argv t)) (terminal_argv t fifo lock name args)) = StubRun fifo lock (exec_argv name args).
Proof. exact (terminal_lemma t fifo lock name args). Qed.
Print Assumptions c104_terminal_arguments.
Example c104_terminal_arguments_ex : terminal_argv (str "xterm -e") (str "/tmp/f") (str "/l") (str "app") (str "a ""b c""") =
  [str "xterm"; str "-e"; str "ecal_process_stub"; str "/tmp/f"; str "/l"; str "app"; str "a"; str "b c"].
Proof. vm_compute. reflexivity. Qed.
(** A terminal emulator is used as configured, or not at all; it is used only with a display and a
    stub that names the expected version, and with these it is. *)
Theorem c104_terminal_used d c o :
  (terminal_command d c o = c /\ (exists x, d = Some x /\ x <> []) /\ (exists x, o = Some x /\ str_trim x = stub_version) \/ terminal_command d c o = []) /\
  (forall x, x <> [] -> terminal_command (Some x) c (Some (stub_version ++ [10%Z])) = c).
Proof. exact (conj (used_lemma d c o) (fun x => usable_lemma x c)). Qed.
Print Assumptions c104_terminal_used.
Example c104_terminal_used_ex : terminal_command (Some (str ":0")) (str "xterm -e") (Some (str "sh: not found")) = [] /\
  terminal_command (Some (str ":0")) (str "xterm -e") (Some (stub_version ++ [10%Z])) = str "xterm -e".
Proof. vm_compute. auto. Qed.

(** What a process reports as its parameters is the command line of its arguments; split again it
    gives the arguments, if none holds a tab or line break without a space. *)
Theorem c104_parameters argv : Forall (fun a => ~ In 0%Z a) argv ->
  process_parameter (cmdline argv) = to_command_line argv /\ (Forall sound_arg argv -> to_argv (process_parameter (cmdline argv)) = argv).
Proof. intros F. exact (conj (parameter_lemma argv F) (restart_lemma argv F)). Qed.
Print Assumptions c104_parameters.
(** Started with such a command line, a program gets the arguments. *)
Theorem c104_arguments name args : Forall sound_arg args -> exec_argv name (to_command_line args) = name :: args.
Proof. exact (exec_lemma name args). Qed.
Print Assumptions c104_arguments.
Example c104_parameters_ex : process_parameter (cmdline sp_args) = str "/usr/bin/app ""a b"" ""say \""x\"""" """" C:\\d" /\ to_argv (process_parameter (cmdline sp_args)) = sp_args.
Proof. vm_compute. auto. Qed.

(** If the lock file cannot be made, a program that could not be executed is reported as started. *)
Theorem c104_without_lock_refuted : ~ (forall e l p, sane e -> uninterrupted l -> in_time l -> returned (s_run e l) p -> p <> 0%Z -> ~ failed (s_run e l)).
Proof.
  intros H. apply (H (sp_no_lock 2) sp_run 77%Z); [repeat split; vm_compute; congruence|..]; try (vm_compute; auto; fail); try discriminate.
  all: intros C; repeat destruct C as [C|C]; try discriminate; contradiction.
Qed.
Print Assumptions c104_without_lock_refuted.
(** A signal that interrupts the wait for the lock turns a failure into a success. *)
Theorem c104_interrupted_refuted : ~ (forall e l p, sane e -> healthy e -> in_time l -> returned (s_run e l) p -> p <> 0%Z -> ~ failed (s_run e l)).
Proof.
  intros H. apply (H sp_enoent sp_intr 77%Z); [repeat split; vm_compute; congruence|repeat split; auto|..]; try (vm_compute; auto; fail); try discriminate.
  intros C; repeat destruct C as [C|C]; try discriminate; contradiction.
Qed.
Print Assumptions c104_interrupted_refuted.
(** 0 is returned although the program runs: after five seconds, or if the FIFO could not be made;
    after a timeout the lock file stays behind. *)
Theorem c104_zero_refuted : ~ (forall e l, sane e -> uninterrupted l -> returned (s_run e l) 0 -> ~ loaded (s_run e l)) /\
  ~ (forall e l, sane e -> uninterrupted l -> in_time l -> returned (s_run e l) 0 -> ~ loaded (s_run e l)) /\
  ~ (forall e l z, sane e -> healthy e -> uninterrupted l -> returned (s_run e l) z -> (forall a, a <> AEnd -> ~ moves e a (s_run e l)) -> l_name (s_run e l) = false).
Proof.
  repeat match goal with |- _ /\ _ => split end; intros H.
  - apply (H sp_ok sp_late); [repeat split; vm_compute; congruence| |vm_compute; auto|vm_compute; auto]. intros C; repeat destruct C as [C|C]; try discriminate; contradiction.
  - apply (H sp_no_fifo sp_run); [repeat split; vm_compute; congruence| | |vm_compute; auto|vm_compute; auto]; intros C; repeat destruct C as [C|C]; try discriminate; contradiction.
  - specialize (H sp_ok sp_late 0%Z). assert (l_name (s_run sp_ok sp_late) = false) as C; [|vm_compute in C; discriminate].
    apply H; [repeat split; vm_compute; congruence|repeat split; auto| |vm_compute; auto|].
    + intros C; repeat destruct C as [C|C]; try discriminate; contradiction.
    + intros a N M. destruct a; try (apply M; vm_compute; reflexivity). congruence.
Qed.
Print Assumptions c104_zero_refuted.
(** With the timeout at the wrong moment the grandchild waits for the FIFO's reader for ever. *)
Theorem c104_stuck_refuted : ~ (forall e l, sane e -> healthy e -> uninterrupted l -> (forall a, ~ moves e a (s_run e l)) -> g_at (s_run e l) = GDead \/ g_at (s_run e l) = GEnded).
Proof.
  intros H. destruct (H sp_ok sp_stuck) as [C|C]; try (vm_compute in C; discriminate).
  - repeat split; vm_compute; congruence.
  - repeat split; auto.
  - intros C; repeat destruct C as [C|C]; try discriminate; contradiction.
  - intros a M. destruct a; apply M; vm_compute; reflexivity.
Qed.
Print Assumptions c104_stuck_refuted.
(** A blocking start does not wait: the program is not the caller's child. *)
Theorem c104_blocking_refuted : ~ (forall e l p, sane e -> healthy e -> e_block e = true -> in_time l -> uninterrupted l -> returned (s_run e l) p -> p <> 0%Z -> g_at (s_run e l) = GEnded).
Proof.
  intros H. specialize (H sp_block sp_run 77%Z). assert (g_at (s_run sp_block sp_run) = GEnded) as C; [|vm_compute in C; discriminate].
  apply H; [repeat split; vm_compute; congruence|repeat split; auto|reflexivity| | |vm_compute; auto|discriminate]; intros C; repeat destruct C as [C|C]; try discriminate; contradiction.
Qed.
Print Assumptions c104_blocking_refuted.
(** A failed first fork leaves the FIFO behind. *)
Theorem c104_fifo_left_refuted : ~ (forall e l z, sane e -> returned (s_run e l) z -> f_name (s_run e l) = false).
Proof. intros H. specialize (H sp_no_fork sp_run 0%Z). discriminate H; [repeat split; vm_compute; congruence|vm_compute; auto]. Qed.
Print Assumptions c104_fifo_left_refuted.
