(** C121: the directories of eCAL below the home directory. *)
From Verif Require Import Base Sample StrModel PathModel PathSpec LogModel LogSpec HomModel HomSpec HomProofs.

(** The functions are defined exactly if there is HOME or an entry for the user. *)
Theorem c121_defined n e s : get_below n e s = None <-> he_home e = None /\ he_passwd e = None.
Proof. exact (defined_lemma n e s). Qed.
Print Assumptions c121_defined.

(** The path that is returned, and exactly when and where it leads to a directory afterwards: the home directory must
    lead to one, ".ecal" in it must be a directory or there is nothing and it may be made, and so for the last one.
    The home directory may be relative and have dots; with an empty one it is the root. *)
Theorem c121_home e s s' p h : home_dir e = Some h -> get_home e s = Some (s', p) ->
  p = h ++ str "/.ecal/" /\ (forall d', leads s' p d' <-> exists d, home_leads s h d /\ possible s d (str ".ecal") /\ d' = d ++ [str ".ecal"]).
Proof. exact (home_lemma e s s' p h). Qed.
Print Assumptions c121_home.
Theorem c121_settings e s s' p h : home_dir e = Some h -> get_settings e s = Some (s', p) ->
  p = h ++ str "/.ecal/" ++ str "cfg" ++ str "/" /\
  (forall d', leads s' p d' <-> exists d, home_leads s h d /\ possible s d (str ".ecal") /\ possible s (d ++ [str ".ecal"]) (str "cfg") /\ d' = d ++ [str ".ecal"; str "cfg"]).
Proof. exact (usable_below (str "cfg") e s s' p h (proj1 plain_names)). Qed.
Print Assumptions c121_settings.
Theorem c121_logs e s s' p h : home_dir e = Some h -> get_logs e s = Some (s', p) ->
  p = h ++ str "/.ecal/" ++ str "logs" ++ str "/" /\
  (forall d', leads s' p d' <-> exists d, home_leads s h d /\ possible s d (str ".ecal") /\ possible s (d ++ [str ".ecal"]) (str "logs") /\ d' = d ++ [str ".ecal"; str "logs"]).
Proof. exact (usable_below (str "logs") e s s' p h (proj2 plain_names)). Qed.
Print Assumptions c121_logs.
Example c121_logs_case : ho_view (get_logs ho_env ho_fs) =
    Some (hf_files ho_fs ++ [([str "home"; str "u"; str ".ecal"], true); ([str "home"; str "u"; str ".ecal"; str "logs"], true)], str "/home/u/.ecal/logs/") /\
  ho_view (get_settings ho_rel ho_fs) =
    Some (hf_files ho_fs ++ [([str "home"; str "u"; str ".ecal"], true); ([str "home"; str "u"; str ".ecal"; str "cfg"], true)], str "u/../u/./.ecal/cfg/").
Proof. split; vm_compute; reflexivity. Qed.

(** Nothing else changes: only the two directories may come into being, where there was nothing; and nothing at all
    if the home directory leads nowhere. *)
Theorem c121_changes_logs e s s' p h : home_dir e = Some h -> get_logs e s = Some (s', p) ->
  (forall d, home_leads s h d -> only_adds s s' [d ++ [str ".ecal"]; d ++ [str ".ecal"; str "logs"]]) /\ ((forall d, ~ home_leads s h d) -> s' = s).
Proof. exact (changes_below (str "logs") e s s' p h (proj2 plain_names)). Qed.
Print Assumptions c121_changes_logs.
Theorem c121_changes_settings e s s' p h : home_dir e = Some h -> get_settings e s = Some (s', p) ->
  (forall d, home_leads s h d -> only_adds s s' [d ++ [str ".ecal"]; d ++ [str ".ecal"; str "cfg"]]) /\ ((forall d, ~ home_leads s h d) -> s' = s).
Proof. exact (changes_below (str "cfg") e s s' p h (proj1 plain_names)). Qed.
Print Assumptions c121_changes_settings.
Example c121_changes_case : home_leads ho_fs (str "/home/u") [str "home"; str "u"] /\ (forall d, ~ home_leads ho_fs (str "/home/" ++ str "v") d) /\
  ho_view (get_logs ho_missing ho_fs) = Some (hf_files ho_fs, str "/home/v/.ecal/logs/").
Proof.
  split; [apply home_walk; vm_compute; reflexivity|]. split; [|vm_compute; reflexivity]. intros d. apply no_home; try reflexivity; [discriminate|]. split; [discriminate|]. vm_compute. intuition discriminate.
Qed.

(** The second call gives the same and changes nothing. *)
Theorem c121_again_logs e s s' p : get_logs e s = Some (s', p) -> get_logs e s' = Some (s', p).
Proof. exact (again_below (str "logs") e s s' p (proj2 plain_names)). Qed.
Print Assumptions c121_again_logs.
Theorem c121_again_settings e s s' p : get_settings e s = Some (s', p) -> get_settings e s' = Some (s', p).
Proof. exact (again_below (str "cfg") e s s' p (proj1 plain_names)). Qed.
Print Assumptions c121_again_settings.

(** When logging starts, it finds the directory of the log file exactly then. *)
Theorem c121_log_start e s s' r h : home_dir e = Some h -> log_dir e s = Some (s', r) ->
  (exists d, home_leads s h d /\ possible s d (str ".ecal") /\ possible s (d ++ [str ".ecal"]) (str "logs")) /\ r = Some (h ++ str "/.ecal/logs/") \/
  (forall d, home_leads s h d -> ~ (possible s d (str ".ecal") /\ possible s (d ++ [str ".ecal"]) (str "logs"))) /\ r = None.
Proof. exact (log_dir_lemma e s s' r h). Qed.
Print Assumptions c121_log_start.
Example c121_log_start_case : option_map snd (log_dir ho_env ho_fs) = Some (Some (str "/home/u/.ecal/logs/")) /\ option_map snd (log_dir ho_env ho_file) = Some None.
Proof. split; vm_compute; reflexivity. Qed.

(** Wrong: the functions are defined in every environment.  Without HOME and without an entry for the user in the list
    of users, as in containers that run under a bare number, a null pointer is read (ecal_config_initializer.cpp 335-340):
    the process dies when it starts to log to a file. *)
Theorem c121_no_user_refuted : forall s, get_home (Henv None None) s = None /\ get_logs (Henv None None) s = None /\ log_dir (Henv None None) s = None.
Proof. intros s. repeat split. Qed.
Print Assumptions c121_no_user_refuted.

(** Wrong: a missing home directory matters for the log file only.  If HOME names a directory that does not exist, only
    the last component is made, which fails, and nobody looks at the result (348-351); the entry of the user is not
    tried.  Then with a file filter nothing is logged at all, neither to the console nor to the network, and nothing
    received (ecal_log_impl.cpp 131). *)
Theorem c121_silent_refuted : exists e s, sound s /\ (forall d, hf_may s d = true) /\ (exists p d, he_passwd e = Some p /\ leads s p d) /\ log_dir e s = Some (s, None) /\
  forall me u c stamp opened ops, sk_mask (lc_file c) <> 0%Z -> Forall (fun op => begins op = false) ops ->
    Forall (fun ev => ev = EFetched [] \/ ev = EBuffer []) (snd (log_run me (LStart c None stamp opened :: ops) (log0 u))).
Proof. exact silent_lemma. Qed.
Print Assumptions c121_silent_refuted.

(** Wrong: the path returned leads to a directory if the home directory is one and can be written.  If ".ecal" in it is
    a file, the path is returned all the same. *)
Theorem c121_file_refuted : exists e s s' p h d, home_dir e = Some h /\ home_leads s h d /\ is_directory s d /\ (forall d, hf_may s d = true) /\ get_logs e s = Some (s', p) /\ s' = s /\ forall d', ~ leads s' p d'.
Proof. exact file_lemma. Qed.
Print Assumptions c121_file_refuted.

(** Wrong: an empty HOME is no home directory.  It is taken for the root directory, and the directory of the user is not
    tried: a process that may write there makes /.ecal (335-345). *)
Theorem c121_empty_refuted : forall s pw, exists s', get_home (Henv (Some []) pw) s = Some (s', str "/.ecal/") /\ (hf_may s [] = true -> nothing s [str ".ecal"] -> is_directory s' [str ".ecal"]).
Proof. exact empty_home_lemma. Qed.
Print Assumptions c121_empty_refuted.
