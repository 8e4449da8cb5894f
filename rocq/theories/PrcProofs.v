(** Proofs about what a process says of itself. *)
From Verif Require Import Base Sample PrcModel PrcSpec.
From Verif Require Import StrModel StrSpec StrProofs.
From Verif Require MonModel MonSpec MonProofs DscSpec SpnModel SpnProofs.

(** ** Every question in one form: the answer, and the answer kept *)
Definition host_now (s : self) : text :=
  match z_host s with [] => match o_host (z_os s) with Some h => h | None => [] end | h => h end.
Definition name_now (s : self) : text :=
  match z_name s with [] => match o_exe (z_os s) with Some p => firstn path_max p | None => [] end | n => n end.
Definition par_now (s : self) : text :=
  match z_par s with
  | [] => match o_cmdline (z_os s) with Some b => SpnModel.process_parameter b | None => [] end
  | p => p
  end.
Definition id_now (s : self) : Z := if (z_id s =? 0)%Z then z_pid s else z_id s.
Definition id_s_now (s : self) : text := if (z_id s =? 0)%Z then prc_number (z_pid s) else z_id_s s.
Definition keep_id (s : self) : self := put_id (id_now s) (id_s_now s) s.
Definition keep_host (s : self) : self := put_host (host_now s) s.
Definition keep_name (s : self) : self := put_name (name_now s) s.
Definition keep_par (s : self) : self := put_par (par_now s) s.

Lemma ask_host_eq s : ask_host s = (host_now s, keep_host s).
Proof. destruct s as [o ? h]. unfold ask_host, keep_host, host_now, put_host. cbn. destruct h; [destruct (o_host o)|]; reflexivity. Qed.
Lemma ask_name_eq s : ask_name s = (name_now s, keep_name s).
Proof. destruct s as [o ? ? ? ? n]. unfold ask_name, keep_name, name_now, put_name. cbn - [path_max firstn]. destruct n; [destruct (o_exe o)|]; reflexivity. Qed.
Lemma ask_par_eq s : ask_par s = (par_now s, keep_par s).
Proof. destruct s as [o ? ? ? ? ? p]. unfold ask_par, keep_par, par_now, put_par. cbn. destruct p; [destruct (o_cmdline o)|]; reflexivity. Qed.
Lemma create_eq s : create_proc_id s = keep_id s.
Proof. destruct s as [o p ? ? ? ? ? i]. unfold create_proc_id, keep_id, id_now, id_s_now, put_id. cbn. destruct (i =? 0)%Z; reflexivity. Qed.
Lemma ask_group_eq s : ask_group s = (match o_group (z_os s) with [] => host_now s | g => g end, match o_group (z_os s) with [] => keep_host s | _ => s end).
Proof. unfold ask_group. rewrite ask_host_eq. destruct (o_group (z_os s)); reflexivity. Qed.

Lemma host_again s : z_host s = host_now s -> keep_host s = s.
Proof. intros E. unfold keep_host, put_host. rewrite <- E. destruct s; reflexivity. Qed.
Lemma keep_host_twice s : keep_host (keep_host s) = keep_host s.
Proof. unfold keep_host, host_now, put_host. destruct s as [o ? h]; cbn. destruct h as [|]; cbn; [|reflexivity]. destruct (o_host o) as [[|]|]; reflexivity. Qed.

Definition told (s : self) : self := keep_name (keep_id (keep_host s)).
Definition told_all (s : self) : self := keep_par (told s).
Definition group_now (s : self) : text := match o_group (z_os s) with [] => host_now s | g => g end.
Lemma host_now_twice s : host_now (keep_id (keep_host s)) = host_now s.
Proof. unfold keep_id, keep_host, host_now, put_host, put_id. cbn. destruct (z_host s); [destruct (o_host (z_os s)) as [[|]|]|]; reflexivity. Qed.
Lemma keep_host_again s : keep_host (keep_id (keep_host s)) = keep_id (keep_host s).
Proof. apply host_again. rewrite host_now_twice. reflexivity. Qed.
Lemma register_eq s : register_sample s =
  (Sample [] (id_now s) (host_now s) bct_reg_process [] []
     (Process 0 (group_now s) (name_now s) (z_unit s) (par_now s) (z_sev s) (z_level s) (z_info s)
        (fst (sync_of (o_gate (z_os s)))) (snd (sync_of (o_gate (z_os s))))
        (to_int32 (z_comps s)) (component_text (z_comps s)) (o_version (z_os s))) service0 client0 topic0, told_all s).
Proof.
  unfold register_sample. rewrite ask_host_eq. unfold ask_id. rewrite create_eq, ask_group_eq. rewrite host_now_twice.
  replace (match o_group (z_os (keep_id (keep_host s))) with [] => keep_host (keep_id (keep_host s)) | _ => keep_id (keep_host s) end) with (keep_id (keep_host s))
    by (destruct (o_group (z_os (keep_id (keep_host s)))); [symmetry; apply keep_host_again|reflexivity]).
  rewrite ask_name_eq, ask_par_eq. reflexivity.
Qed.
Lemma unregister_eq s : unregister_sample s =
  (Sample [] (id_now s) (host_now s) bct_unreg_process [] []
     (Process 0 [] (name_now s) (z_unit s) [] 0 0 [] 0 [] 0 [] []) service0 client0 topic0, told s).
Proof. unfold unregister_sample. rewrite ask_host_eq. unfold ask_id. rewrite create_eq, ask_name_eq. reflexivity. Qed.
Definition base_of (p : text) : text := match behind_slash p with Some r => r | None => p end.
Lemma start_up_some n c s : start_up (Some n) c s =
  put_comps (Z.lor (z_comps s) c) (match n with [] => put_unit (base_of (name_now s)) (keep_name s) | _ => put_unit n s end).
Proof.
  unfold start_up, set_global_unit. destruct n; [|reflexivity]. cbn [z_unit put_unit]. rewrite ask_name_eq. unfold keep_name. cbn. reflexivity.
Qed.

Lemma step_eq a s : p_step a s =
  match a with
  | Change o => (Quiet, put_os o s)
  | Forked pid => (Quiet, put_pid pid s)
  | StartUp None c => (Quiet, put_comps (Z.lor (z_comps s) c) s)
  | StartUp (Some []) c => (Quiet, put_comps (Z.lor (z_comps s) c) (put_unit (base_of (name_now s)) (keep_name s)))
  | StartUp (Some n) c => (Quiet, put_comps (Z.lor (z_comps s) c) (put_unit n s))
  | ShutDown => (Quiet, put_comps 0 s)
  | SetUnit u => said_number (set_unit u s)
  | SetState sev level info => (Quiet, set_state sev level info s)
  | AskId => (Number (id_now s), keep_id s)
  | AskIdText => (Words (id_s_now s), keep_id s)
  | AskHost => (Words (host_now s), keep_host s)
  | AskGroup => (Words (group_now s), match o_group (z_os s) with [] => keep_host s | _ => s end)
  | AskName => (Words (name_now s), keep_name s)
  | AskUnit => (Words (z_unit s), s)
  | AskTask sep => (Words (ask_task sep s), s)
  | AskPar => (Words (par_now s), keep_par s)
  | Register => (Says (fst (register_sample s)), told_all s)
  | Unregister => (Says (fst (unregister_sample s)), told s)
  end.
Proof.
  destruct a; cbn [p_step]; try reflexivity.
  - destruct u as [n|]; [|reflexivity]. rewrite start_up_some. destruct n; reflexivity.
  - unfold ask_id. rewrite create_eq. reflexivity.
  - unfold ask_id_text. rewrite create_eq. reflexivity.
  - rewrite ask_host_eq. reflexivity.
  - rewrite ask_group_eq. reflexivity.
  - rewrite ask_name_eq. reflexivity.
  - rewrite ask_par_eq. reflexivity.
  - rewrite register_eq. reflexivity.
  - rewrite unregister_eq. reflexivity.
Qed.
Ltac by_step s a := rewrite step_eq; destruct s; destruct a as [| |[[|]|]| |[[|]|]| | | | | | | | | | |]; try reflexivity;
  cbn; repeat match goal with |- context [match o_group ?o with _ => _ end] => destruct (o_group o) end; auto.

Lemma run_snoc l a s : p_run (l ++ [a]) s = snd (p_step a (p_run l s)).
Proof. unfold p_run. rewrite fold_left_app. reflexivity. Qed.
Lemma run_cons a l s : p_run (a :: l) s = p_run l (snd (p_step a s)).
Proof. reflexivity. Qed.
Lemma run_app l l' s : p_run (l ++ l') s = p_run l' (p_run l s).
Proof. unfold p_run. apply fold_left_app. Qed.

(** ** The id *)
Lemma step_id a s : z_id (snd (p_step a s)) = (if needs_id a then id_now s else z_id s)
  /\ z_id_s (snd (p_step a s)) = (if needs_id a then id_s_now s else z_id_s s)
  /\ z_pid (snd (p_step a s)) = match a with Forked p => p | _ => z_pid s end.
Proof. by_step s a. Qed.

Definition last_pid (pid : Z) (l : list pact) : Z := fold_left (fun p a => match a with Forked q => q | _ => p end) l pid.
Lemma id_kept l s : z_id s <> 0%Z -> z_id (p_run l s) = z_id s /\ z_id_s (p_run l s) = z_id_s s.
Proof.
  revert s. induction l as [|a l IH]; intros s N; [split; reflexivity|]. rewrite run_cons.
  destruct (step_id a s) as (E & F & _). unfold id_now, id_s_now in E, F. apply Z.eqb_neq in N as N'. rewrite N' in E, F.
  assert (z_id (snd (p_step a s)) = z_id s) as E' by (rewrite E; destruct (needs_id a); reflexivity).
  assert (z_id_s (snd (p_step a s)) = z_id_s s) as F' by (rewrite F; destruct (needs_id a); reflexivity).
  rewrite <- E', <- F'. apply IH. rewrite E'. exact N.
Qed.
Lemma id_run l : forall s, z_id s = 0%Z -> pid_ok (z_pid s) -> forks_ok l ->
  match first_pid (z_pid s) l with
  | None => z_id (p_run l s) = 0%Z /\ z_pid (p_run l s) = last_pid (z_pid s) l /\ pid_ok (z_pid (p_run l s))
  | Some q => pid_ok q /\ z_id (p_run l s) = q /\ z_id_s (p_run l s) = prc_number q
  end.
Proof.
  induction l as [|a l IH]; intros s Z0 P F; [cbn; auto|]. rewrite run_cons.
  destruct (step_id a s) as (E1 & E2 & E3).
  assert (forks_ok l) as F' by (intros p Hp; apply F; right; exact Hp).
  destruct (needs_id a) eqn:N; rewrite ?N in E1, E2.
  - assert (first_pid (z_pid s) (a :: l) = Some (z_pid s)) as -> by (destruct a; try discriminate; reflexivity).
    unfold id_now, id_s_now in E1, E2. rewrite Z0 in E1, E2. change (0 =? 0)%Z with true in E1, E2. cbn iota in E1, E2.
    assert (z_id (snd (p_step a s)) <> 0%Z) as N0 by (rewrite E1; unfold pid_ok in P; lia).
    destruct (id_kept l _ N0) as (K1 & K2). rewrite K1, K2, E1, E2. auto.
  - assert (pid_ok (z_pid (snd (p_step a s)))) as P'. { rewrite E3. destruct a; try exact P. apply F. left. reflexivity. }
    rewrite Z0 in E1. specialize (IH _ E1 P' F').
    assert (first_pid (z_pid s) (a :: l) = first_pid (z_pid (snd (p_step a s))) l) as -> by (rewrite E3; destruct a; try discriminate; reflexivity).
    assert (last_pid (z_pid s) (a :: l) = last_pid (z_pid (snd (p_step a s))) l) as -> by (rewrite E3; destruct a; try discriminate; reflexivity).
    exact IH.
Qed.
Lemma first_snoc l : forall pid a, needs_id a = true ->
  first_pid pid (l ++ [a]) = Some (match first_pid pid l with Some q => q | None => last_pid pid l end).
Proof.
  induction l as [|b l IH]; intros pid a N; [destruct a; try discriminate; reflexivity|].
  unfold last_pid. destruct b; cbn [app first_pid needs_id fold_left]; try reflexivity; apply IH; exact N.
Qed.
Lemma id_lemma o pid l a : pid_ok pid -> forks_ok l -> needs_id a = true ->
  exists q, first_pid pid (l ++ [a]) = Some q /\ pid_ok q /\
    p_says l AskId (self0 o pid) = Number q /\ p_says l AskIdText (self0 o pid) = Words (prc_number q) /\
    spoken_id (p_says l Register (self0 o pid)) = Some q /\ spoken_id (p_says l Unregister (self0 o pid)) = Some q.
Proof.
  intros P F N. pose proof (id_run l (self0 o pid) eq_refl P F) as R. change (z_pid (self0 o pid)) with pid in R.
  exists (match first_pid pid l with Some q => q | None => last_pid pid l end). split; [apply first_snoc; exact N|].
  unfold p_says. set (s := p_run l (self0 o pid)) in *. rewrite !step_eq, register_eq, unregister_eq. cbn.
  unfold id_now, id_s_now. destruct (first_pid pid l) as [q|].
  - destruct R as (Q & R1 & R2). rewrite R1, R2. replace (q =? 0)%Z with false by (symmetry; apply Z.eqb_neq; unfold pid_ok in Q; lia). auto.
  - destruct R as (R1 & R2 & R3). rewrite R1, R2 in *. change (0 =? 0)%Z with true. auto.
Qed.
Lemma first_no_fork l : forall pid a, needs_id a = true -> Forall (fun a => is_fork a = false) l -> first_pid pid (l ++ [a]) = Some pid.
Proof.
  induction l as [|b l IH]; intros pid a N H; [destruct a; try discriminate; reflexivity|].
  inversion H as [|? ? Hb Hl]; subst. destruct b; try discriminate Hb; cbn; try reflexivity; apply IH; auto.
Qed.
Lemma no_fork_ok l : Forall (fun a => is_fork a = false) l -> forks_ok l.
Proof. intros H p Hp. rewrite Forall_forall in H. discriminate (H _ Hp). Qed.
Lemma own_id_lemma o pid l : pid_ok pid -> Forall (fun a => is_fork a = false) l ->
  p_says l AskId (self0 o pid) = Number pid /\
  p_says l AskIdText (self0 o pid) = Words (MonModel.int_text pid) /\ MonSpec.digits_only (MonModel.int_text pid) /\ DscSpec.decimal (MonModel.int_text pid) = pid /\
  spoken_id (p_says l Register (self0 o pid)) = Some pid /\ spoken_id (p_says l Unregister (self0 o pid)) = Some pid.
Proof.
  intros P F. destruct (id_lemma o pid l AskId P (no_fork_ok _ F) eq_refl) as (q & E & _ & R). rewrite (first_no_fork l pid AskId eq_refl F) in E. injection E as <-.
  destruct (MonProofs.int_text_spec pid) as (D & _ & V); [unfold pid_ok in P; lia|]. tauto.
Qed.

(** ** What was said once is said again *)
Lemma step_kept a s : (z_host s <> [] -> z_host (snd (p_step a s)) = z_host s) /\ (z_name s <> [] -> z_name (snd (p_step a s)) = z_name s)
  /\ (z_par s <> [] -> z_par (snd (p_step a s)) = z_par s).
Proof.
  rewrite step_eq; destruct s; destruct a as [| |[[|]|]| |[[|]|]| | | | | | | | | | |];
  cbn; unfold host_now, name_now, par_now; cbn - [path_max firstn];
  repeat match goal with |- context [match o_group ?o with _ => _ end] => destruct (o_group o) end;
  cbn - [path_max firstn]; repeat split; auto; intros N; match type of N with ?x <> [] => destruct x; [congruence|reflexivity] end.
Qed.
Lemma run_kept l : forall s, (z_host s <> [] -> z_host (p_run l s) = z_host s) /\ (z_name s <> [] -> z_name (p_run l s) = z_name s)
  /\ (z_par s <> [] -> z_par (p_run l s) = z_par s).
Proof.
  induction l as [|a l IH]; intros s; [auto|]. rewrite run_cons. destruct (step_kept a s) as (A & B & C). destruct (IH (snd (p_step a s))) as (A' & B' & C').
  repeat split; intros N; [rewrite A', A|rewrite B', B|rewrite C', C]; auto; first [rewrite A|rewrite B|rewrite C]; auto.
Qed.
Lemma stays_lemma l l' s t : t <> [] ->
  (p_says l AskHost s = Words t -> p_says (l ++ AskHost :: l') AskHost s = Words t) /\
  (p_says l AskName s = Words t -> p_says (l ++ AskName :: l') AskName s = Words t) /\
  (p_says l AskPar s = Words t -> p_says (l ++ AskPar :: l') AskPar s = Words t).
Proof.
  intros N. unfold p_says. rewrite !run_app, !run_cons. set (u := p_run l s). rewrite !step_eq. cbn [fst snd].
  repeat split; intros E; injection E as E.
  - destruct (run_kept l' (keep_host u)) as (K & _ & _). cbn in K. rewrite E in K. specialize (K N). unfold host_now at 1. rewrite K. destruct t; [congruence|reflexivity].
  - destruct (run_kept l' (keep_name u)) as (_ & K & _). cbn in K. rewrite E in K. specialize (K N). unfold name_now at 1. rewrite K. destruct t; [congruence|reflexivity].
  - destruct (run_kept l' (keep_par u)) as (_ & _ & K). cbn in K. rewrite E in K. specialize (K N). unfold par_now at 1. rewrite K. destruct t; [congruence|reflexivity].
Qed.

(** ** The first answer is the truth *)

Definition honest (o : osys) (s : self) : Prop :=
  z_os s = o /\ (z_host s = [] \/ Some (z_host s) = o_host o) /\
  (z_name s = [] \/ exists p, o_exe o = Some p /\ z_name s = firstn path_max p) /\
  (z_par s = [] \/ exists b, o_cmdline o = Some b /\ z_par s = SpnModel.process_parameter b).
Lemma honest_host o s : honest o s -> honest o (keep_host s) /\ host_now s = match o_host o with Some h => h | None => [] end.
Proof.
  intros (O & H & N & P). assert (host_now s = match o_host o with Some h => h | None => [] end) as E.
  { unfold host_now. rewrite O. destruct (z_host s) eqn:Eh; [reflexivity|]. destruct H as [H|H]; [discriminate|]. rewrite <- H. reflexivity. }
  split; [|exact E]. repeat split; auto. cbn. rewrite E. destruct (o_host o); auto.
Qed.
Lemma honest_name o s : honest o s -> honest o (keep_name s) /\ name_now s = match o_exe o with Some p => firstn path_max p | None => [] end.
Proof.
  intros (O & H & N & P). assert (name_now s = match o_exe o with Some p => firstn path_max p | None => [] end) as E.
  { unfold name_now. rewrite O. destruct (z_name s) eqn:Eh; [reflexivity|]. destruct N as [N|(p & N & M)]; [discriminate|]. rewrite N. exact M. }
  split; [|exact E]. repeat split; auto. cbn [z_name keep_name put_name]. rewrite E. destruct (o_exe o) as [p|]; [right; exists p|left]; auto.
Qed.
Lemma honest_par o s : honest o s -> honest o (keep_par s) /\ par_now s = match o_cmdline o with Some b => SpnModel.process_parameter b | None => [] end.
Proof.
  intros (O & H & N & P). assert (par_now s = match o_cmdline o with Some b => SpnModel.process_parameter b | None => [] end) as E.
  { unfold par_now. rewrite O. destruct (z_par s) eqn:Eh; [reflexivity|]. destruct P as [P|(p & P & M)]; [discriminate|]. rewrite P. exact M. }
  split; [|exact E]. repeat split; auto. cbn [z_par keep_par put_par]. rewrite E. destruct (o_cmdline o) as [p|]; [right; exists p|left]; auto.
Qed.
Lemma honest_id o s : honest o s -> honest o (keep_id s).
Proof. intros H. exact H. Qed.
Lemma honest_step o a s : is_change a = false -> honest o s -> honest o (snd (p_step a s)).
Proof.
  intros C H. rewrite step_eq. unfold told_all, told. destruct a as [| |[[|]|]| |[[|]|]| | | | | | | | | | |]; try discriminate C; cbn [snd fst said_number set_unit]; try exact H.
  - exact (proj1 (honest_name o s H)).
  - exact (proj1 (honest_host o s H)).
  - destruct (o_group (z_os s)); [exact (proj1 (honest_host o s H))|exact H].
  - exact (proj1 (honest_name o s H)).
  - exact (proj1 (honest_par o s H)).
  - apply honest_par. apply (honest_name o (keep_id (keep_host s))). exact (proj1 (honest_host o s H)).
  - apply (honest_name o (keep_id (keep_host s))). exact (proj1 (honest_host o s H)).
Qed.
Lemma honest_run o l : forall s, Forall (fun a => is_change a = false) l -> honest o s -> honest o (p_run l s).
Proof. induction l as [|a l IH]; intros s F H; [exact H|]. inversion F; subst. rewrite run_cons. apply IH; [assumption|]. apply honest_step; assumption. Qed.
Lemma honest0 o pid : honest o (self0 o pid).
Proof. repeat split; left; reflexivity. Qed.
Lemma truth_lemma o pid l : Forall (fun a => is_change a = false) l ->
  p_says l AskHost (self0 o pid) = Words (match o_host o with Some h => h | None => [] end) /\
  p_says l AskName (self0 o pid) = Words (match o_exe o with Some p => firstn path_max p | None => [] end) /\
  p_says l AskPar (self0 o pid) = Words (match o_cmdline o with Some b => SpnModel.process_parameter b | None => [] end) /\
  p_says l AskGroup (self0 o pid) = Words (match o_group o with [] => match o_host o with Some h => h | None => [] end | g => g end).
Proof.
  intros F. pose proof (honest_run o l _ F (honest0 o pid)) as H. unfold p_says. rewrite !step_eq. cbn [fst].
  destruct (honest_host _ _ H) as (_ & ->). destruct (honest_name _ _ H) as (_ & ->). destruct (honest_par _ _ H) as (_ & ->).
  unfold group_now. destruct (honest_host _ _ H) as (_ & ->). destruct H as (-> & _). repeat split; destruct (o_group o); reflexivity.
Qed.

(** ** Parameters *)
Lemma parameter_lemma o pid l args : Forall (fun a => is_change a = false) l -> o_cmdline o = Some (shown args) -> Forall no_zero args ->
  p_says l AskPar (self0 o pid) = Words (to_command_line args).
Proof.
  intros F E N. destruct (truth_lemma o pid l F) as (_ & _ & -> & _). rewrite E. f_equal. exact (SpnProofs.parameter_lemma args N).
Qed.
Lemma parameter_back o pid l args : Forall (fun a => is_change a = false) l -> o_cmdline o = Some (shown args) -> Forall no_zero args -> Forall sound_arg args ->
  exists t, p_says l AskPar (self0 o pid) = Words t /\ to_argv t = args.
Proof. intros F E N S'. exists (to_command_line args). split; [apply parameter_lemma; assumption|apply argv_lemma; exact S']. Qed.
Lemma step_task a s : z_task (snd (p_step a s)) = z_task s.
Proof. by_step s a. Qed.
Lemma task_lemma o pid l sep : p_says l (AskTask sep) (self0 o pid) = Words [].
Proof.
  unfold p_says. cbn [p_step fst]. f_equal. unfold ask_task. assert (z_task (p_run l (self0 o pid)) = []) as ->; [|reflexivity].
  generalize (eq_refl : z_task (self0 o pid) = []). generalize (self0 o pid). induction l as [|a l IH]; intros s E; [exact E|]. rewrite run_cons. apply IH. rewrite step_task. exact E.
Qed.
Lemma task_line_from sep ps : forall line, line <> [] -> task_line sep line ps = line ++ flat_map (fun p => sep ++ p) ps.
Proof.
  induction ps as [|p ps IH]; intros line N; [cbn; rewrite app_nil_r; reflexivity|]. cbn [task_line flat_map]. destruct line as [|c line]; [congruence|].
  rewrite IH by discriminate. rewrite <- !app_assoc. reflexivity.
Qed.
Lemma task_line_lemma sep p ps : p <> [] -> task_line sep [] (p :: ps) = str_join sep (p :: ps).
Proof.
  intros N. cbn [task_line app]. rewrite (task_line_from sep ps p N). clear N. revert p. induction ps as [|q ps IH]; intros p; [apply app_nil_r|].
  change (str_join sep (p :: q :: ps)) with (p ++ sep ++ str_join sep (q :: ps)). rewrite <- IH. cbn [flat_map]. rewrite <- app_assoc. reflexivity.
Qed.

(** ** The state *)
Lemma step_said a s : (z_sev (snd (p_step a s)), z_level (snd (p_step a s))) = match a with SetState v w _ => (v, w) | _ => (z_sev s, z_level s) end
  /\ z_info (snd (p_step a s)) = match a with SetState _ _ (Some i) => i | _ => z_info s end
  /\ z_comps (snd (p_step a s)) = match a with StartUp _ c => Z.lor (z_comps s) c | ShutDown => 0%Z | _ => z_comps s end.
Proof. by_step s a. Qed.
Lemma run_said l : forall s, (z_sev (p_run l s), z_level (p_run l s)) = latest_level (z_sev s, z_level s) l
  /\ z_info (p_run l s) = latest_info (z_info s) l /\ z_comps (p_run l s) = started (z_comps s) l.
Proof.
  induction l as [|a l IH]; intros s; [auto|]. rewrite run_cons. destruct (IH (snd (p_step a s))) as (A & B & C). destruct (step_said a s) as (A' & B' & C').
  rewrite A, B, C, A', B', C'. destruct a; try destruct info; auto.
Qed.
Lemma state_lemma o pid l : exists m, p_says l Register (self0 o pid) = Says m /\ sm_cmd m = bct_reg_process /\
  (pr_severity (sm_process m), pr_severity_level (sm_process m)) = latest_level (0, 1)%Z l /\
  pr_info (sm_process m) = latest_info [] l /\ pr_comp_state (sm_process m) = to_int32 (started 0 l) /\
  pr_comp_info (sm_process m) = component_text (started 0 l).
Proof.
  eexists. split; [unfold p_says; rewrite step_eq, register_eq; reflexivity|]. cbn.
  destruct (run_said l (self0 o pid)) as (-> & -> & ->). repeat split.
Qed.
Lemma component_lemma mask : component_text mask = str_join (str "|") (named mask) /\ str_split (str "|") (component_text mask) = named mask.
Proof.
  unfold component_text, named, bit_text, has_bit. destruct (Z.land mask 1 =? 0)%Z, (Z.land mask 2 =? 0)%Z, (Z.land mask 16 =? 0)%Z, (Z.land mask 32 =? 0)%Z; split; reflexivity.
Qed.

(** ** Register and unregister speak of the same process *)
Lemma key_lemma l l' s m m' : p_says l Register s = Says m -> p_says (l ++ Register :: l') Unregister s = Says m' ->
  pid_ok (z_pid (p_run l s)) -> pr_pname (sm_process m) <> [] -> sm_host m <> [] ->
  sm_pid m' = sm_pid m /\ sm_host m' = sm_host m /\ pr_pname (sm_process m') = pr_pname (sm_process m) /\
  MonModel.process_key m' = MonModel.process_key m /\ sm_cmd m' = bct_unreg_process.
Proof.
  unfold p_says. rewrite run_app, run_cons. set (u := p_run l s). rewrite !step_eq, register_eq. cbn [fst snd]. intros E E' P N H.
  rewrite unregister_eq in E'. injection E as <-. injection E' as <-. cbn in *.
  assert (z_id (told_all u) <> 0%Z) as I0. { cbn. change (id_now (keep_host u)) with (id_now u). unfold id_now. destruct (Z.eqb_spec (z_id u) 0); [unfold pid_ok in P; lia|assumption]. }
  destruct (id_kept l' (told_all u) I0) as (I1 & _).
  destruct (run_kept l' (told_all u)) as (K1 & K2 & _). change (z_host (told_all u)) with (host_now u) in K1. change (z_name (told_all u)) with (name_now u) in K2.
  specialize (K1 H). specialize (K2 N). set (v := p_run l' (told_all u)) in *.
  assert (id_now v = id_now u) as A1. { unfold id_now at 1. rewrite I1. apply Z.eqb_neq in I0. rewrite I0. reflexivity. }
  assert (host_now v = host_now u) as A2. { unfold host_now at 1. rewrite K1. destruct (host_now u); [congruence|reflexivity]. }
  assert (name_now v = name_now u) as A3. { unfold name_now at 1. rewrite K2. destruct (name_now u); [congruence|reflexivity]. }
  rewrite A1, A2, A3. repeat split.
Qed.

(** ** The name of the unit *)
Lemma behind_spec t : match behind_slash t with Some r => exists d, t = d ++ 47%Z :: r /\ ~ In 47%Z r | None => ~ In 47%Z t end.
Proof.
  induction t as [|c t IH]; [intros []|]. cbn. destruct (behind_slash t) as [r|].
  - destruct IH as (d & -> & N). exists (c :: d). split; [reflexivity|exact N].
  - destruct (Z.eqb_spec c 47) as [->|N]; [exists []; split; [reflexivity|exact IH]|]. intros [E|H]; [congruence|contradiction].
Qed.
Lemma base_is p : base_name p (base_of p).
Proof.
  unfold base_of. pose proof (behind_spec p) as B. destruct (behind_slash p) as [r|]; [|split; [exact B|left; reflexivity]].
  destruct B as (d & E & N). split; [exact N|right; exists d; exact E].
Qed.
Lemma base_unique p n n' : base_name p n -> base_name p n' -> n = n'.
Proof.
  assert (forall d d' a b : text, ~ In 47%Z a -> ~ In 47%Z b -> d ++ 47%Z :: a = d' ++ 47%Z :: b -> a = b) as U.
  { induction d as [|x d IH]; intros [|y d'] a b Na Nb E; cbn in E.
    - injection E as E. exact E.
    - injection E as _ E. exfalso. apply Na. rewrite E. apply in_or_app. right. left. reflexivity.
    - injection E as _ E. exfalso. apply Nb. rewrite <- E. apply in_or_app. right. left. reflexivity.
    - injection E as _ E. exact (IH d' a b Na Nb E). }
  intros [N [E|(d & E)]] [N' [E'|(d' & E')]].
  - congruence.
  - exfalso. apply N. rewrite <- E, E'. apply in_or_app. right. left. reflexivity.
  - exfalso. apply N'. rewrite <- E', E. apply in_or_app. right. left. reflexivity.
  - apply (U d d'); auto. congruence.
Qed.
Lemma derived_lemma s p c : p_says [] AskName s = Words p -> forall n, p_says [StartUp (Some []) c] AskUnit s = Words n <-> base_name p n.
Proof.
  unfold p_says. cbn [p_run fold_left]. rewrite !step_eq. cbn. intros E. injection E as ->. intros n. split.
  - intros E. injection E as <-. apply base_is.
  - intros B. f_equal. apply (base_unique p); [apply base_is|exact B].
Qed.
Lemma step_unit a s : keeps_unit a -> z_unit (snd (p_step a s)) = match a with SetUnit (Some (c :: n)) => c :: n | StartUp (Some (c :: n)) _ => c :: n | _ => z_unit s end.
Proof. intros K. rewrite step_eq. destruct s; destruct a as [| |[[|]|]| |[[|]|]| | | | | | | | | | |]; try contradiction K; try reflexivity. cbn. destruct (o_group z_os); reflexivity. Qed.
Lemma unit_lemma l : forall s, Forall keeps_unit l -> p_says l AskUnit s = Words (given_unit (z_unit s) l).
Proof.
  unfold p_says. cbn [p_step fst]. induction l as [|a l IH]; intros s F; [reflexivity|]. inversion F; subst. rewrite run_cons, IH by assumption. rewrite step_unit by assumption.
  destruct a as [| |[[|]|]| |[[|]|]| | | | | | | | | | |]; reflexivity.
Qed.

(** ** Sizes *)
Lemma buffer_lemma n : (0 <= n)%Z -> let (v, u) := buffer_parts n in
  In u [str "byte"; str "kByte"; str "MByte"] /\ (v * unit_size u <= n < (v + 1) * unit_size u)%Z /\ (u <> str "MByte" -> v <= 1024)%Z /\
  (u <> str "byte" -> 1 <= v)%Z.
Proof.
  intros N. unfold buffer_parts. destruct (Z.ltb_spec 1024 n) as [A|A].
  - pose proof (Z.div_mod n 1024 ltac:(lia)) as D. pose proof (Z.mod_pos_bound n 1024 ltac:(lia)) as M.
    destruct (Z.ltb_spec 1024 (n / 1024)) as [B|B].
    + pose proof (Z.div_mod (n / 1024) 1024 ltac:(lia)) as D'. pose proof (Z.mod_pos_bound (n / 1024) 1024 ltac:(lia)) as M'.
      change (unit_size (str "MByte")) with 1048576%Z. split; [cbn; auto|]. split; [lia|]. split; [congruence|lia].
    + change (unit_size (str "kByte")) with 1024%Z. split; [cbn; auto|]. split; [lia|]. split; lia.
  - destruct (Z.ltb_spec 1024 n); [lia|]. change (unit_size (str "byte")) with 1%Z. split; [cbn; auto|]. split; [lia|]. split; [lia|congruence].
Qed.

(** ** Threads *)
Lemma nth_set {A} (l : list A) : forall k j v, nth_error (set_nth k v l) j = if Nat.eqb k j then match nth_error l k with Some _ => Some v | None => None end else nth_error l j.
Proof. induction l as [|x l IH]; intros [|k] [|j] v; cbn; try reflexivity; [destruct (Nat.eqb k j); reflexivity|]. apply IH. Qed.
Record idr_inv (pid : Z) (s : idr) : Prop := {
  v_pid : i_pid s = pid;
  v_id : i_id s = 0%Z \/ i_id s = pid;
  v_text : i_text s = [] \/ i_text s = prc_number pid;
  v_at : forall k p, nth_error (i_threads s) k = Some p ->
    match p with IdText => i_id s = pid | IdGot t => t = [] \/ t = prc_number pid | _ => True end }.
Lemma idr_inv_step pid k s : pid <> 0%Z -> idr_inv pid s -> idr_inv pid (idr_step k s).
Proof.
  intros P [A B C D]. unfold idr_step. destruct (nth_error (i_threads s) k) as [p|] eqn:E; [|split; assumption]. pose proof (D k p E) as Dk.
  assert (forall q, match q with IdText => i_id s = pid | IdGot t => t = [] \/ t = prc_number pid | _ => True end ->
     forall j r, nth_error (set_nth k q (i_threads s)) j = Some r -> match r with IdText => i_id s = pid | IdGot t => t = [] \/ t = prc_number pid | _ => True end) as W.
  { intros q Q j r. rewrite nth_set, E. destruct (Nat.eqb k j); [intros H; injection H as <-; exact Q|apply D]. }
  destruct p; (split; cbn; auto).
  - apply W. destruct (i_id s =? 0)%Z; exact Logic.I.
  - intros j r. rewrite nth_set, E. destruct (Nat.eqb k j); [intros H; injection H as <-; exact A|]. intros H. specialize (D j r H). destruct r; auto.
  - rewrite Dk. right. reflexivity.
  - apply W. exact Logic.I.
  - apply W. exact C.
Qed.
Lemma idr_inv_run pid l s : pid <> 0%Z -> idr_inv pid s -> idr_inv pid (idr_run l s).
Proof. intros P. revert s. induction l as [|k l IH]; intros s H; [exact H|]. apply IH. apply idr_inv_step; assumption. Qed.
Lemma idr_inv0 pid n : idr_inv pid (idr0 pid n).
Proof.
  split; cbn; auto. intros k p H. apply nth_error_In in H. apply repeat_spec in H. subst p. exact Logic.I.
Qed.
Lemma threads_lemma pid n l k t : pid_ok pid -> got t (idr_run l (idr0 pid n)) k -> t = [] \/ t = prc_number pid.
Proof.
  intros P H. assert (idr_inv pid (idr_run l (idr0 pid n))) as [_ _ _ D] by (apply idr_inv_run; [unfold pid_ok in P; lia|apply idr_inv0]).
  exact (D k _ H).
Qed.
(** One thread alone. *)
Definition alone_inv (pid : Z) (s : idr) : Prop :=
  i_pid s = pid /\ match i_threads s with
  | [IdTest] => i_id s = 0%Z | [IdNumber] => i_id s = 0%Z | [IdText] => i_id s = pid
  | [IdRead] => i_text s = prc_number pid | [IdGot t] => t = prc_number pid | _ => False end.
Lemma alone_step pid k s : alone_inv pid s -> alone_inv pid (idr_step k s).
Proof.
  unfold alone_inv, idr_step. destruct s as [q i t th]. cbn. destruct th as [|p [|]]; [tauto| |destruct p; tauto].
  destruct k as [|k]; [|assert (nth_error [p] (S k) = None) as -> by (destruct k; reflexivity); cbn; auto].
  destruct p; cbn; intros [-> E]; subst; cbn; auto.
  change (0 =? 0)%Z with true. auto.
Qed.
Lemma alone_lemma pid l t : got t (idr_run l (idr0 pid 1)) 0 -> t = prc_number pid.
Proof.
  assert (alone_inv pid (idr_run l (idr0 pid 1))) as H.
  { unfold idr_run. apply fold_left_inv; [split; reflexivity|intros; apply alone_step; assumption]. }
  unfold got. destruct H as [_ H]. destruct (i_threads (idr_run l (idr0 pid 1))) as [|p [|]]; try contradiction; [|destruct p; contradiction].
  cbn. intros E. injection E as ->. exact H.
Qed.
(** Who asked before the threads were started has written both. *)
Lemma asked_before pid th l k t : pid <> 0%Z -> Forall (fun p => p = IdTest) th -> got t (idr_run l (Idr pid pid (prc_number pid) th)) k -> t = prc_number pid.
Proof.
  intros P F. set (s0 := Idr pid pid (prc_number pid) th).
  assert (i_id (idr_run l s0) = pid /\ i_text (idr_run l s0) = prc_number pid /\
    (forall j p, nth_error (i_threads (idr_run l s0)) j = Some p -> p = IdTest \/ p = IdRead \/ p = IdGot (prc_number pid))) as (_ & _ & H).
  { unfold idr_run. apply (fold_left_inv _ (fun s => i_id s = pid /\ i_text s = prc_number pid /\ forall j p, nth_error (i_threads s) j = Some p -> p = IdTest \/ p = IdRead \/ p = IdGot (prc_number pid))).
    - repeat split. intros j p G. apply nth_error_In in G. rewrite Forall_forall in F. left. exact (F _ G).
    - intros s j (A & B & C). unfold idr_step. destruct (nth_error (i_threads s) j) as [p|] eqn:E; [|auto].
      destruct (C j p E) as [Q|[Q|Q]]; subst p; cbn; repeat split; auto; intros j' p'; rewrite nth_set, E; (destruct (Nat.eqb j j'); [|apply C]); intros G; injection G as <-.
      + rewrite A. apply Z.eqb_neq in P. rewrite P. auto.
      + rewrite B. auto. }
  intros G. destruct (H k _ G) as [E|[E|E]]; [discriminate|discriminate|injection E as ->; reflexivity].
Qed.
Lemma component_blind : component_text 12 = [] /\ forall mask, component_text (Z.lor mask 12) = component_text mask.
Proof.
  split; [reflexivity|]. intros mask. unfold component_text, bit_text. rewrite !Z.land_lor_distr_l.
  change (Z.land 12 1) with 0%Z. change (Z.land 12 2) with 0%Z. change (Z.land 12 16) with 0%Z. change (Z.land 12 32) with 0%Z. rewrite !Z.lor_0_r. reflexivity.
Qed.
Lemma sample_lemma l s m : p_says l Register s = Says m ->
  p_says l AskId s = Number (sm_pid m) /\ p_says l AskHost s = Words (sm_host m) /\ p_says l AskGroup s = Words (pr_hgname (sm_process m)) /\
  p_says l AskName s = Words (pr_pname (sm_process m)) /\ p_says l AskUnit s = Words (pr_uname (sm_process m)) /\
  p_says l AskPar s = Words (pr_pparam (sm_process m)) /\ pr_version (sm_process m) = o_version (z_os (p_run l s)) /\
  tells_time (o_gate (z_os (p_run l s))) (pr_tsync_state (sm_process m)) (pr_tsync_mod (sm_process m)).
Proof.
  unfold p_says. rewrite !step_eq, register_eq. cbn [fst]. intros E. injection E as <-. cbn. do 7 (split; [reflexivity|]).
  unfold tells_time. destruct (o_gate (z_os (p_run l s))) as [[[b k] n]|]; [destruct b, k|]; cbn; (split; [reflexivity|]); split;
    (split; [try discriminate; eauto|intros (? & H); try discriminate H; reflexivity]).
Qed.
Lemma unregister_lemma l s m : p_says l Unregister s = Says m ->
  p_says l AskId s = Number (sm_pid m) /\ p_says l AskHost s = Words (sm_host m) /\
  p_says l AskName s = Words (pr_pname (sm_process m)) /\ p_says l AskUnit s = Words (pr_uname (sm_process m)).
Proof. unfold p_says. rewrite !step_eq, unregister_eq. cbn [fst]. intros E. injection E as <-. cbn. repeat split. Qed.
