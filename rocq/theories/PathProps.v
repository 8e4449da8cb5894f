(** Properties C50, C66, C67 and C68: cleaning, comparing, relating and creating paths. *)
From Verif Require Import Base Sample StrModel StrSpec PathModel PathSpec PathProofs.

(** C50: cleaning a path that is clean changes nothing.  Partial: Unix style, and where cleaning is
    defined at all. *)
Theorem c50_idempotent_partial : forall s t, clean Unix s = Some t -> clean Unix t = Some t.
Proof. exact idempotent_lemma. Qed.
Print Assumptions c50_idempotent_partial.

(** A cleaned path denotes what the path denotes, in every working directory.  Partial: not for a
    relative path that starts with a dot component. *)
Theorem c50_place_partial : forall cwd s t, clean Unix s = Some t -> ~ dot_first s -> place cwd t = place cwd s.
Proof. exact place_lemma. Qed.
Print Assumptions c50_place_partial.

(** In every style the components of an absolute path are names: never above the root. *)
Theorem c50_absolute : forall st s, is_absolute st s = true -> Forall name (clean_list st s).
Proof. exact names_lemma. Qed.
Print Assumptions c50_absolute.

(** The absolute paths of Windows: a drive (a letter and a colon, then a separator or only spaces), or two separators
    and the name of a host. *)
Theorem c50_windows_absolute : forall s, is_absolute Windows s = true <-> drive_path s \/ host_path s.
Proof. exact windows_absolute_lemma. Qed.
Print Assumptions c50_windows_absolute.

Example c50_windows_absolute_case : is_absolute Windows (str "x:\a") = true /\ is_absolute Windows (str "\\host\a") = true /\
  is_absolute Windows (str "xy/a") = false /\ is_absolute Windows (str "x:a") = false.
Proof. repeat split; vm_compute; reflexivity. Qed.

(** The root is kept. *)
Theorem c50_root : forall st s t, clean st s = Some t -> exists r, t = to_unix st (abs_root st s) ++ r.
Proof. exact root_lemma. Qed.
Print Assumptions c50_root.

Example c50_case :
  clean Unix (str "/a//./b/../c/") = Some (str "/a/c/") /\ clean Unix (str "x/../../y") = Some (str "../y") /\
  ~ dot_first (str "x/../../y") /\ place [str "w"; str "v"] (str "x/../../y") = [str "y"; str "v"] /\
  is_absolute Windows (str "C:\a\..\..\b") = true /\ clean Windows (str "C:\a\..\..\b") = Some (str "C:/b").
Proof.
  split; [vm_compute; reflexivity|]. split; [vm_compute; reflexivity|]. split; [|split; [|split]; vm_compute; reflexivity].
  intros H. vm_compute in H. destruct H as [r H]. discriminate.
Qed.

(** Cleaning a relative path that leads back to its start and ends in a slash reads the last
    character of an empty string. *)
Theorem c50_undefined_refuted : forall n, name n -> clean Unix (n ++ str "/../") = None.
Proof. exact undefined_lemma. Qed.
Print Assumptions c50_undefined_refuted.
Example c50_undefined_case : name (str "a").
Proof. repeat split; try discriminate. intros [H|[]]. discriminate. Qed.

(** A leading dot is taken for a directory that can be left. *)
Theorem c50_dot_refuted : exists s t, clean Unix s = Some t /\ forall d cwd, place (d :: cwd) s <> place (d :: cwd) t.
Proof.
  exists (str "./../x"), (str "x"). split; [vm_compute; reflexivity|]. intros d cwd H. vm_compute in H. injection H as H.
  apply (f_equal (@length text)) in H. cbn in H. lia.
Qed.
Print Assumptions c50_dot_refuted.

(** In the style that is the default a relative path can become an absolute one and is not yet clean. *)
Theorem c50_combined_refuted : exists s t u, is_absolute Combined s = false /\ clean Combined s = Some t /\ is_absolute Combined t = true /\ clean Combined t = Some u /\ t <> u.
Proof. exists (str "x/../C:"), (str "C:"), (str "C:/"). repeat split; try (vm_compute; reflexivity). discriminate. Qed.
Print Assumptions c50_combined_refuted.

(** C66: the absolute form of a relative path denotes what the path denotes in the base directory.
    Partial: the base directory starts with exactly one slash and has no backslash. *)
Theorem c66_absolute_partial : forall base rel, ordinary base \/ base = [47%Z] ->
  exists t, absolute_from base rel Unix = Some t /\ is_absolute Unix t = true /\ place_of t = fold_left go (str_split [47%Z] rel) (place_of base).
Proof. exact absolute_from_lemma. Qed.
Print Assumptions c66_absolute_partial.

Example c66_absolute_case : ordinary (str "/a/b/") /\ absolute_from (str "/a/b/") (str "../c") Unix = Some (str "/a/c").
Proof.
  split; [|vm_compute; reflexivity]. split; [exists 97%Z, (str "/b/"); split; [vm_compute; reflexivity|discriminate]|].
  intros H. vm_compute in H. intuition congruence.
Qed.

(** Two paths are equal if and only if they denote the same place.  Partial: the working directory is
    not the root directory, and there is no backslash. *)
Theorem c66_equal_partial : forall cwd p q, ordinary cwd -> ~ In 92%Z p -> ~ In 92%Z q ->
  exists b, is_equal cwd p q = Some b /\ (b = true <-> place (place_of cwd) p = place (place_of cwd) q).
Proof. exact is_equal_lemma. Qed.
Print Assumptions c66_equal_partial.

Example c66_equal_case : ordinary (str "/a/b") /\ is_equal (str "/a/b") (str "./c/../d") (str "/a/b/d/") = Some true /\ is_equal (str "/a/b") (str "c") (str "d") = Some false.
Proof.
  split; [|split; vm_compute; reflexivity]. split; [exists 97%Z, (str "/b"); split; [vm_compute; reflexivity|discriminate]|].
  intros H. vm_compute in H. intuition congruence.
Qed.

(** In the root directory a relative path is joined with two slashes, and its first component is then
    taken for a network host that cannot be left. *)
Theorem c66_root_refuted : exists p q, is_equal [47%Z] p q = Some false /\ place [] p = place [] q.
Proof. exists (str "a/../b"), (str "b"). split; vm_compute; reflexivity. Qed.
Print Assumptions c66_root_refuted.

(** A file whose name has a backslash equals another file. *)
Theorem c66_backslash_refuted : exists cwd p q, ordinary cwd /\ is_equal cwd p q = Some true /\ place (place_of cwd) p <> place (place_of cwd) q.
Proof.
  exists (str "/c"), (str "a\b"), (str "a/b"). split; [|split; [vm_compute; reflexivity|vm_compute; discriminate]].
  split; [exists 99%Z, []; split; [vm_compute; reflexivity|discriminate]|]. intros H. vm_compute in H. intuition congruence.
Qed.
Print Assumptions c66_backslash_refuted.

(** The file name of a path is its last component. *)
Theorem c66_file_name : forall d n, name n -> file_name Unix (d ++ [47%Z] ++ n) = n.
Proof. exact file_name_lemma. Qed.
Print Assumptions c66_file_name.

Example c66_file_name_case : name (str ".b.c") /\ file_name Unix (str "../x/.b.c") = str ".b.c" /\ base_name Unix (str "../x/.b.c") = [].
Proof.
  split; [|split; vm_compute; reflexivity]. split; [discriminate|]. split; [|split; discriminate]. intros H. vm_compute in H. intuition congruence.
Qed.

(** The base name is the file name up to its first dot. *)
Theorem c66_base_name : forall d b e, ~ In 46%Z b ->
  (name b -> base_name Unix (d ++ [47%Z] ++ b) = b) /\ (name (b ++ [46%Z] ++ e) -> base_name Unix (d ++ [47%Z] ++ b ++ [46%Z] ++ e) = b).
Proof. exact base_name_lemma. Qed.
Print Assumptions c66_base_name.

Example c66_base_name_case : base_name Unix (str "/x.y/a.tar.gz") = str "a" /\ base_name Unix (str "/x.y/a") = str "a".
Proof. split; vm_compute; reflexivity. Qed.

(** C67: exactly when the relative path leads from the base directory to the path: the base is the root, or both have
    at least the first component in common and neither lies below the other. *)
Theorem c67_relative_exactly : forall base path, is_absolute Unix base = true -> is_absolute Unix path = true ->
  (place (place_of base) (relative base path Unix) = place_of path <->
   place_of base = [] \/ exists com x y b p, com <> [] /\ x <> y /\ rev (place_of base) = com ++ x :: b /\ rev (place_of path) = com ++ y :: p).
Proof. exact relative_exact_lemma. Qed.
Print Assumptions c67_relative_exactly.

Example c67_relative_case :
  rev (place_of (str "/a/b/c")) = [str "a"] ++ str "b" :: [str "c"] /\ rev (place_of (str "/a/./d/")) = [str "a"] ++ str "d" :: [] /\
  relative (str "/a/b/c") (str "/a/./d/") Unix = str "../../d" /\ relative (str "//") (str "/a/b") Unix = str "a/b".
Proof. repeat split; vm_compute; reflexivity. Qed.

(** Otherwise it does not: for a path above the base, below the base, and besides it in the root. *)
Theorem c67_relative_refuted : forall a b, name a -> name b -> a <> b ->
  let here s t := place (place_of s) (relative s t Unix) in
  let top n := 47%Z :: n in let sub n m := 47%Z :: n ++ 47%Z :: m in
  here (sub a b) (top a) <> place_of (top a) /\ here (top a) (sub a b) <> place_of (sub a b) /\ here (top a) (top b) <> place_of (top b).
Proof. exact relative_refuted_lemma. Qed.
Print Assumptions c67_relative_refuted.

(** C68: creating a path makes all missing directories on the way to it, nothing else, and reports
    success; if there is a file on the way it changes nothing and reports failure.  Partial: not
    for the root directory. *)
Theorem c68_make_path_partial : forall fs r, sound_fs fs -> place_of (47%Z :: r) <> [] ->
  let ps := rev (place_of (47%Z :: r)) in
  ((forall q, q <> [] -> prefix q ps -> aget q fs <> Some false) ->
     exists fs', make_path Unix fs (47%Z :: r) = Some (fs', true) /\
       (forall q, q <> [] -> prefix q ps -> aget q fs' = Some true) /\ (forall q, q = [] \/ ~ prefix q ps -> aget q fs' = aget q fs)) /\
  (forall q, q <> [] -> prefix q ps -> aget q fs = Some false -> make_path Unix fs (47%Z :: r) = Some (fs, false)).
Proof. exact make_path_lemma. Qed.
Print Assumptions c68_make_path_partial.

Definition c68_fs : files := [([str "a"], true); ([str "a"; str "f"], false)].
Example c68_make_path_case :
  sound_fs c68_fs /\ place_of (str "/a/x/../b/c/") <> [] /\
  make_path Unix c68_fs (str "/a/x/../b/c/") = Some (c68_fs ++ [([str "a"; str "b"], true); ([str "a"; str "b"; str "c"], true)], true) /\
  make_path Unix c68_fs (str "/a/f/c") = Some (c68_fs, false).
Proof.
  split; [|split; [vm_compute; discriminate|split; vm_compute; reflexivity]].
  intros q x H. destruct q as [|y q]; [left; reflexivity|]. right. destruct q as [|z q].
  - cbn [app] in H. unfold c68_fs in *. cbn [aget] in *. destruct (eqb [y; x] [str "a"]) eqn:E; [apply eqb_true in E; discriminate|].
    destruct (eqb [y; x] [str "a"; str "f"]) eqn:E2; [|congruence]. apply eqb_true in E2. injection E2 as -> ->. vm_compute. reflexivity.
  - exfalso. apply H. unfold c68_fs. cbn [aget]. rewrite !neq_eqb; [reflexivity| |]; intros X; apply (f_equal (@length text)) in X; cbn in X; rewrite app_length in X; cbn in X; lia.
Qed.

(** For the root directory, which always exists, it reports failure. *)
Theorem c68_root_refuted : forall fs, make_path Unix fs [47%Z] = Some (fs, false).
Proof. intros fs. vm_compute. reflexivity. Qed.
Print Assumptions c68_root_refuted.
