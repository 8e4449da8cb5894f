(** Properties C48, C49, C63, C64 and C65: command lines, strings, quoted strings and environment variables. *)
From Verif Require Import Base Sample StrModel StrSpec StrProofs.

(** C48: arguments written to a command line are read back unchanged exactly if each argument that has
    a tab or another blank besides the space has a space, too. *)
Theorem c48_round_trip_exactly : forall l, to_argv (to_command_line l) = l <-> Forall sound_arg l.
Proof. exact argv_exact_lemma. Qed.
Print Assumptions c48_round_trip_exactly.

Example c48_round_trip_case :
  let l := [str "a b"; []; [92; 34; 39]%Z; 32%Z :: [10; 92]%Z; str "--x=y"] in
  Forall sound_arg l /\ to_command_line l = [34; 97; 32; 98; 34; 32; 34; 34; 32; 92; 92; 92; 34; 92; 39; 32; 34; 32; 10; 92; 92; 34; 32]%Z ++ str "--x=y".
Proof.
  split; [|vm_compute; reflexivity]. repeat apply Forall_cons; try apply Forall_nil.
  - left. vm_compute. tauto.
  - right. intros c [].
  - right. intros c H. cbn in H. unfold blank_char. intuition congruence.
  - left. left. reflexivity.
  - right. intros c H. vm_compute in H. unfold blank_char. intuition congruence.
Qed.

(** Otherwise it is taken apart: only a space makes ToCommandLine quote the argument, but ToArgv
    separates arguments at every blank. *)
Theorem c48_round_trip_refuted : exists a b, to_argv (to_command_line [a ++ [9%Z] ++ b]) = [a; b] /\ a <> [] /\ b <> [].
Proof. exists (str "a"), (str "b"). split; [vm_compute; reflexivity|split; discriminate]. Qed.
Print Assumptions c48_round_trip_refuted.

(** Splitting a command line in pieces loses no argument and changes none: reading the pieces gives what
    reading the line gives, whatever its quotes and escapes are.  Each piece is one argument, except
    the last one permitted, which is the rest of the line; there are no more than permitted.
    Partial: the only blank in the line is the space. *)
Theorem c48_split_partial : forall s max, spaces_only s ->
  flat_map to_argv (split_command_line s max) = to_argv s /\
  (forall k p, nth_error (split_command_line s max) k = Some p -> max = 0 \/ S k < max -> exists x, to_argv p = [x]) /\
  (max <> 0 -> length (split_command_line s max) <= max /\
     (length (split_command_line s max) = max -> exists a, s = a ++ last (split_command_line s max) [])).
Proof. exact split_command_line_lemma. Qed.
Print Assumptions c48_split_partial.

Example c48_split_case :
  let s := to_command_line [str "a b"; str "c'd"; str "e"] in
  spaces_only s /\ split_command_line s 0 = map escape_arg [str "a b"; str "c'd"; str "e"] /\
  split_command_line s 2 = [escape_arg (str "a b"); to_command_line [str "c'd"; str "e"]].
Proof.
  split; [|split; vm_compute; reflexivity]. intros c H B. vm_compute in H. unfold blank_char in B. intuition congruence.
Qed.

Theorem c48_split_refuted : exists s, length (split_command_line s 0) = 1 /\ forall p, In p (split_command_line s 0) -> length (to_argv p) = 2.
Proof. exists (str "a" ++ [9%Z] ++ str "b"). split; [vm_compute; reflexivity|]. intros p [<-|[]]. vm_compute. reflexivity. Qed.
Print Assumptions c48_split_refuted.

(** C49: Split gives the maximal non-empty runs of characters that are no delimiters, in order, and
    nothing else. *)
Theorem c49_split : forall d s ps, str_split d s = ps <-> pieces d s ps.
Proof. exact split_lemma. Qed.
Print Assumptions c49_split.

(** Joining non-empty parts without the delimiter and splitting again gives the parts. *)
Theorem c49_join : forall c ps, Forall (fun p => p <> [] /\ ~ In c p) ps -> str_split [c] (str_join [c] ps) = ps.
Proof. exact split_join. Qed.
Print Assumptions c49_join.

Example c49_case :
  str_split (str ",;") (str ";ab,,c;") = [str "ab"; str "c"] /\
  Forall (fun p => p <> [] /\ ~ In 44%Z p) [str "ab"; str "c"] /\ str_join [44%Z] [str "ab"; str "c"] = str "ab,c".
Proof.
  split; [vm_compute; reflexivity|split; [|vm_compute; reflexivity]].
  repeat constructor; try discriminate; intros H; vm_compute in H; intuition congruence.
Qed.

(** C63: Replace replaces the occurrences from the left, each once, and keeps everything else. *)
Theorem c63_replace_partial : forall s x y t, x <> [] -> (str_replace s x y = Some t <-> replaced x y s t).
Proof. exact replace_lemma. Qed.
Print Assumptions c63_replace_partial.

Theorem c63_replace_same : forall s x, x <> [] -> str_replace s x x = Some s.
Proof. exact replace_same. Qed.
Print Assumptions c63_replace_same.

Example c63_replace_case : str_replace (str "aaaxaa") (str "aa") (str "aab") = Some (str "aabaxaab").
Proof. vm_compute. reflexivity. Qed.

(** Replacing the empty string never ends: no number of rounds of the loop is enough. *)
Theorem c63_replace_empty_refuted : forall y s rounds, replace_loop rounds [] y s = None.
Proof. exact replace_empty. Qed.
Print Assumptions c63_replace_empty_refuted.

(** Trim removes exactly the blanks at both ends; what is trimmed stays as it is. *)
Theorem c63_trim : forall s,
  (exists a b, s = a ++ str_trim s ++ b /\ Forall blank_char a /\ Forall blank_char b) /\ trimmed (str_trim s).
Proof. exact trim_lemma. Qed.
Print Assumptions c63_trim.

Theorem c63_trim_kept : forall s, trimmed s -> str_trim s = s.
Proof. exact trimmed_id. Qed.
Print Assumptions c63_trim_kept.

Example c63_trim_case : str_trim (str " a b" ++ [10%Z]) = str "a b" /\ trimmed (str "a b") /\ str_trim (str "  ") = [].
Proof.
  split; [vm_compute; reflexivity|split; [split|vm_compute; reflexivity]].
  - intros c r H. injection H as <- _. unfold blank_char. lia.
  - intros c r H. change (str "a b") with ([97; 32] ++ [98])%Z in H. apply app_inj_tail in H as [_ <-]. unfold blank_char. lia.
Qed.

(** An escaped text has none of the characters quotation mark, apostrophe, less-than, greater-than, and
    reading the entities gives the text back. *)
Theorem c63_escape : forall s,
  (forall c, In c (html_escape s) -> ~ In c [34; 39; 60; 62]%Z) /\ unescape (length (html_escape s)) (html_escape s) = s.
Proof. intros s. exact (conj (escape_clean s) (unescape_lemma s _ (le_n _))). Qed.
Print Assumptions c63_escape.

Example c63_escape_case : html_escape (str "a<b&lt;") = str "a&lt;b&amp;lt;".
Proof. vm_compute. reflexivity. Qed.

(** A centred string has the wanted length, is kept whole and differs by at most one character between left and right. *)
Theorem c63_center : forall s pad n, length s < n ->
  exists a b, center s pad n = (repeat pad a ++ s ++ repeat pad b, true) /\ a + length s + b = n /\ a <= b <= a + 1.
Proof. exact center_lemma. Qed.
Print Assumptions c63_center.

Example c63_center_case : center (str "ab") 46 5 = (str ".ab..", true) /\ center (str "ab") 46 2 = (str "ab", false).
Proof. split; vm_compute; reflexivity. Qed.

(** C64: parts that were put in quotes, with quotes and escape characters escaped, are read back
    unchanged.  Partial: not if the last part is empty and empty parts are not kept, nor if there is no
    part and empty parts are kept. *)
Theorem c64_round_trip_partial : forall esc rm keep ps, esc <> 34%Z ->
  (rm = true -> keep = false -> last ps [0%Z] <> []) -> (keep = true -> ps <> []) ->
  split_quoted (row esc ps) esc rm keep = map (bounded_by_quotes rm) ps.
Proof. exact row_lemma. Qed.
Print Assumptions c64_round_trip_partial.

Example c64_round_trip_case :
  let ps := [str "a b"; []; [92; 34; 32]%Z] in
  row 92 ps = ([34; 97; 32; 98; 34; 32; 34; 34; 32; 34; 92; 92; 92; 34; 32; 34])%Z /\ split_quoted (row 92 ps) 92 true false = ps.
Proof. split; vm_compute; reflexivity. Qed.

(** Blanks of any number separate parts; those at the front count for nothing. *)
Theorem c64_blanks : forall esc rm keep p b bs s, esc <> 34%Z -> blank_char b -> Forall blank_char bs ->
  split_quoted (bs ++ s) esc rm keep = split_quoted s esc rm keep /\
  split_quoted (quoted esc p ++ b :: bs ++ s) esc rm keep = bounded_by_quotes rm p :: split_quoted s esc rm keep.
Proof. exact blanks_lemma. Qed.
Print Assumptions c64_blanks.

Example c64_blanks_case : split_quoted (str "  a   b c") 92 true false = [str "a"; str "b"; str "c"].
Proof. vm_compute. reflexivity. Qed.

(** An empty part is kept at the front and lost at the end. *)
Theorem c64_last_empty_refuted : exists p esc,
  split_quoted (row esc [[]; p]) esc true false = [[]; p] /\ split_quoted (row esc [p; []]) esc true false = [p] /\ p <> [].
Proof. exists (str "a"), 92%Z. repeat split; [vm_compute; reflexivity..|discriminate]. Qed.
Print Assumptions c64_last_empty_refuted.

(** When empty parts are kept, a blank at the end and the empty line make a part that is not there. *)
Theorem c64_extra_part_refuted : forall esc p, esc <> 34%Z ->
  split_quoted [] esc true true = [[]] /\ split_quoted (row esc [p] ++ [32%Z]) esc true true = [p; []].
Proof. intros esc p N. exact (conj eq_refl (extra_part esc p N)). Qed.
Print Assumptions c64_extra_part_refuted.

(** C65: expanding a text of plain parts, escaped dollar signs and variables puts the value of each
    variable in its place, leaves unknown variables as they are written and everything else alone. *)
Theorem c65_expand_partial : forall env l, template l -> expand env (flat_map written l) = flat_map (meaning env) l.
Proof. exact expand_lemma. Qed.
Print Assumptions c65_expand_partial.

Example c65_expand_case :
  let env n := if list_eq_dec Z.eq_dec n (str "HOME") then Some (str "/h$X") else None in
  let l := [TText (str "a "); TBare (str "HOME"); TText (str "/"); TCurly (str "HOME"); TEscaped; TRound (str "NO")] in
  template l /\ flat_map written l = str "a $HOME/${HOME}\$$(NO)" /\ expand env (flat_map written l) = str "a /h$X//h$X$$(NO)".
Proof.
  split; [|split; vm_compute; reflexivity]. cbn [template written flat_map]. unfold name_char.
  repeat match goal with |- _ /\ _ => split | |- Forall _ _ => apply Forall_forall; intros ? H; vm_compute in H end;
    try (intros H; vm_compute in H; intuition congruence); try discriminate; try exact I; try (intuition lia).
Qed.

(** A text without backslashes is not changed if no variable is known. *)
Theorem c65_unknown : forall env s, (forall n, env n = None) -> ~ In 92%Z s -> expand env s = s.
Proof. exact expand_unset_lemma. Qed.
Print Assumptions c65_unknown.

Example c65_unknown_case : ~ In 92%Z (str "a$(b ${c}$ $") /\ str "a$(b ${c}$ $" <> [].
Proof. split; [intros H; vm_compute in H; intuition congruence|discriminate]. Qed.

(** A backslash cannot be escaped: of two backslashes before a variable the first stays and the second
    suppresses the expansion. *)
Theorem c65_backslash_refuted : forall env, expand env ([92; 92]%Z ++ str "$X") = [92%Z] ++ str "$X".
Proof. intros env. vm_compute. reflexivity. Qed.
Print Assumptions c65_backslash_refuted.

(** An opening brace without its counterpart is swallowed together with the name. *)
Theorem c65_unclosed_refuted : forall env v, env (str "X") = Some v -> expand env (str "${X,") = v ++ str ",".
Proof. exact unclosed_brace. Qed.
Print Assumptions c65_unclosed_refuted.
