(** Proofs about strings and command lines. *)
From Verif Require Import Base Sample StrModel StrSpec.

Arguments str : simpl never.

Lemma among_spec c d : among c d = true <-> In c d.
Proof. unfold among. rewrite existsb_exists. split; [intros (x & H & E); apply Z.eqb_eq in E; subst; exact H|intros H; exists c; rewrite Z.eqb_refl; auto]. Qed.
Lemma among_false c d : among c d = false <-> ~ In c d.
Proof. rewrite <- among_spec. destruct (among c d); intuition congruence. Qed.
Lemma blank_spec c : is_blank c = true <-> blank_char c.
Proof. unfold is_blank, blank_char. rewrite orb_true_iff, andb_true_iff, Z.eqb_eq, !Z.leb_le. lia. Qed.
Lemma blank_false c : is_blank c = false <-> ~ blank_char c.
Proof. rewrite <- blank_spec. destruct (is_blank c); intuition congruence. Qed.

Ltac zlit := repeat match goal with |- context [(?a =? ?b)%Z] =>
  let v := eval vm_compute in (a =? b)%Z in match v with true => change (a =? b)%Z with true | false => change (a =? b)%Z with false end end.
(** ** Splitting *)
Lemma skip_delim_spec d s : exists g, s = g ++ skip_delim d s /\ Forall (fun c => In c d) g /\ match skip_delim d s with [] => True | c :: _ => ~ In c d end.
Proof.
  induction s as [|c s (g & E & F & H)]; [exists []; repeat split; constructor|]. cbn [skip_delim]. destruct (among c d) eqn:A.
  - apply among_spec in A. exists (c :: g). cbn. rewrite <- E. auto.
  - apply among_false in A. exists []. repeat split; auto.
Qed.
Lemma run_of_spec d s : forall p r, run_of d s = (p, r) -> s = p ++ r /\ Forall (fun c => ~ In c d) p /\ begins_with d r /\ (match s with [] => True | c :: _ => ~ In c d end -> s <> [] -> p <> []).
Proof.
  induction s as [|c s IH]; intros p r E; cbn [run_of] in E.
  - injection E as <- <-. repeat split; auto.
  - destruct (among c d) eqn:A.
    + injection E as <- <-. apply among_spec in A. repeat split; auto.
    + destruct (run_of d s) as [p' r'] eqn:R. injection E as <- <-. destruct (IH p' r' eq_refl) as (-> & F & B & _).
      apply among_false in A. repeat split; auto. discriminate.
Qed.
Lemma split_pieces d : forall fuel s, length s <= fuel -> pieces d s (split_loop fuel d s).
Proof.
  induction fuel as [|f IH]; intros s L.
  - destruct s; [|cbn in L; lia]. constructor. constructor.
  - destruct s as [|c0 s0]; [constructor; constructor|]. cbn [split_loop].
    destruct (skip_delim_spec d (c0 :: s0)) as (g & E & F & H). destruct (run_of d (skip_delim d (c0 :: s0))) as [p r] eqn:R.
    destruct (run_of_spec d _ p r R) as (E2 & Fp & B & N). destruct p as [|c p].
    + change ([] ++ r) with r in E2. rewrite E2 in E, H, N. destruct r as [|x y].
      * rewrite E, app_nil_r. destruct f; constructor; exact F.
      * destruct (N H ltac:(discriminate) eq_refl).
    + rewrite E, E2. constructor; auto; [discriminate|]. apply IH. apply (f_equal (@length Z)) in E. rewrite E2, !app_length in E. cbn in E, L. lia.
Qed.
Lemma skip_delim_all d g s : Forall (fun c => In c d) g -> skip_delim d (g ++ s) = skip_delim d s.
Proof. induction 1 as [|c g H F IH]; [reflexivity|]. cbn. rewrite (proj2 (among_spec c d) H). exact IH. Qed.
Lemma run_of_all d p r : Forall (fun c => ~ In c d) p -> begins_with d r -> run_of d (p ++ r) = (p, r).
Proof.
  induction 1 as [|c p H F IH]; intros B; cbn [app run_of].
  - destruct r as [|c r]; [reflexivity|]. cbn in B. cbn [run_of]. rewrite (proj2 (among_spec c d) B). reflexivity.
  - rewrite (proj2 (among_false c d) H), IH by exact B. reflexivity.
Qed.
Lemma pieces_split d s ps : pieces d s ps -> forall fuel, length s <= fuel -> split_loop fuel d s = ps.
Proof.
  induction 1 as [g F|g p r ps F N Fp B P IH]; intros fuel L.
  - revert g F L. induction fuel as [|f IH]; intros g F L; [reflexivity|]. destruct g as [|c g]; [reflexivity|]. cbn [split_loop].
    pose proof (skip_delim_all d (c :: g) [] F) as Sk. rewrite app_nil_r in Sk. rewrite Sk. cbn. destruct f; reflexivity.
  - rewrite !app_length in L. destruct p as [|c p]; [congruence|]. destruct fuel as [|f]; [cbn in L; lia|].
    assert (split_loop (S f) d (g ++ (c :: p) ++ r) = let (p', r') := run_of d (skip_delim d (g ++ (c :: p) ++ r)) in match p' with [] => split_loop f d r' | _ => p' :: split_loop f d r' end) as ->.
    { destruct g; reflexivity. }
    rewrite skip_delim_all by exact F. assert (skip_delim d ((c :: p) ++ r) = (c :: p) ++ r) as ->.
    { cbn. inversion Fp as [|? ? Hc ?]; subst. rewrite (proj2 (among_false c d) Hc). reflexivity. }
    rewrite run_of_all by assumption. f_equal. apply IH. cbn in L. lia.
Qed.
Lemma split_lemma d s ps : str_split d s = ps <-> pieces d s ps.
Proof. split; [intros <-; apply split_pieces; apply le_n|intros P; apply pieces_split; [exact P|apply le_n]]. Qed.
Lemma join_pieces c ps : Forall (fun p => p <> [] /\ ~ In c p) ps -> pieces [c] (str_join [c] ps) ps.
Proof.
  induction 1 as [|p ps (N & C) F IH]; [constructor; constructor|].
  assert (Fp : Forall (fun x => ~ In x [c]) p) by (apply Forall_forall; intros x Hx [->|[]]; contradiction).
  destruct ps as [|q ps].
  - cbn. rewrite <- (app_nil_r p) at 1. apply (pieces_more [c] [] p [] []); [constructor|exact N|exact Fp|exact I|constructor; constructor].
  - change (str_join [c] (p :: q :: ps)) with ([] ++ p ++ (c :: str_join [c] (q :: ps))).
    apply pieces_more; [constructor|exact N|exact Fp|left; reflexivity|]. remember (str_join [c] (q :: ps)) as s eqn:Es. clear Es.
    inversion IH as [|g p' r ps' G N' Fp' B P]; subst. change (c :: g ++ q ++ r) with ((c :: g) ++ q ++ r).
    apply pieces_more; auto. constructor; [left; reflexivity|exact G].
Qed.
Lemma split_join c ps : Forall (fun p => p <> [] /\ ~ In c p) ps -> str_split [c] (str_join [c] ps) = ps.
Proof. intros F. apply split_lemma. apply join_pieces. exact F. Qed.

(** ** Replacing *)
Lemma starts_spec x : forall s, starts x s = true <-> exists b, s = x ++ b.
Proof.
  induction x as [|a x IH]; intros s; cbn [starts]; [split; [exists s; reflexivity|reflexivity]|].
  destruct s as [|b s]; [split; [discriminate|intros [r H]; discriminate]|]. rewrite andb_true_iff, Z.eqb_eq, IH. split.
  - intros [-> [r ->]]. exists r. reflexivity.
  - intros [r H]. injection H as -> ->. split; [reflexivity|eauto].
Qed.
Lemma occurs_zero x s : occurs_at x s 0 <-> starts x s = true.
Proof.
  rewrite starts_spec. split.
  - intros (a & b & L & ->). destruct a; [|discriminate]. exists b. reflexivity.
  - intros [b ->]. exists [], b. auto.
Qed.
Lemma occurs_succ x c s n : occurs_at x (c :: s) (S n) <-> occurs_at x s n.
Proof.
  split.
  - intros (a & b & L & E). destruct a as [|d a]; [discriminate|]. injection E as -> ->. exists a, b. split; [cbn in L; lia|reflexivity].
  - intros (a & b & L & ->). exists (c :: a), b. split; [cbn; lia|reflexivity].
Qed.
Lemma find_spec x s : match find_at x s with
  | Some n => occurs_at x s n /\ forall m, m < n -> ~ occurs_at x s m
  | None => forall n, ~ occurs_at x s n end.
Proof.
  induction s as [|c s IH]; cbn [find_at]; destruct (starts x _) eqn:S0.
  - split; [apply occurs_zero; exact S0|intros m; lia].
  - intros n (a & b & L & E). symmetry in E. apply app_eq_nil in E as [-> E]. apply app_eq_nil in E as [-> ->]. discriminate.
  - split; [apply occurs_zero; exact S0|intros m; lia].
  - destruct (find_at x s) as [n|]; cbn [option_map].
    + destruct IH as [A B]. split; [apply occurs_succ; exact A|]. intros [|m] Lm; [rewrite occurs_zero; congruence|]. rewrite occurs_succ. apply B. lia.
    + intros [|n]; [rewrite occurs_zero; congruence|]. rewrite occurs_succ. apply IH.
Qed.
Lemma replace_total x y : x <> [] -> forall fuel s, length s < fuel -> exists t, replace_loop fuel x y s = Some t /\ replaced x y s t.
Proof.
  intros N. induction fuel as [|f IH]; intros s L; [lia|]. cbn [replace_loop]. pose proof (find_spec x s) as F. destruct (find_at x s) as [n|].
  - destruct F as [(a & b & La & ->) F]. subst n. assert (skipn (length a + length x) (a ++ x ++ b) = b) as ->.
    { rewrite app_assoc, <- app_length, skipn_app, skipn_all, Nat.sub_diag. reflexivity. }
    rewrite firstn_app, firstn_all, Nat.sub_diag, app_nil_r. destruct (IH b) as (t & -> & R).
    { rewrite !app_length in L. destruct x; [congruence|]. cbn in L. lia. }
    cbn [option_map]. eexists. split; [reflexivity|]. constructor; [exact F|exact R].
  - exists s. split; [reflexivity|constructor; exact F].
Qed.
Lemma replaced_fun x y : x <> [] -> forall s t, replaced x y s t -> forall t', replaced x y s t' -> t = t'.
Proof.
  intros N s t R. induction R as [s H|a s t H R IH]; intros t' R'; inversion R' as [s' H' E1 E2|a' s' u H' R2 E1 E2]; subst.
  - reflexivity.
  - destruct (H (length a')). exists a', s'. auto.
  - destruct (H' (length a)). exists a, s. auto.
  - assert (length a = length a') as La.
    { destruct (lt_eq_lt_dec (length a) (length a')) as [[L|L]|L]; [|exact L|].
      - destruct (H' _ L). exists a, s. auto.
      - destruct (H _ L). exists a', s'. split; [reflexivity|]. auto. }
    assert (a = a' /\ s = s') as [<- <-].
    { apply app_eq_app in E1 as (l & [[E3 E4]|[E3 E4]]); assert (l = []) as -> by (apply length_zero_iff_nil; apply (f_equal (@length Z)) in E3; rewrite app_length in E3; lia);
        rewrite app_nil_r in E3; subst; cbn in E4; apply app_inv_head in E4; auto. }
    rewrite (IH _ R2). reflexivity.
Qed.
Lemma replace_lemma s x y t : x <> [] -> str_replace s x y = Some t <-> replaced x y s t.
Proof.
  intros N. destruct (replace_total x y N (S (length s)) s (le_n _)) as (t0 & E & R). unfold str_replace. rewrite E. split.
  - intros H. injection H as <-. exact R.
  - intros R'. f_equal. apply (replaced_fun x y N s); assumption.
Qed.
Lemma replace_empty y s : forall fuel, replace_loop fuel [] y s = None.
Proof. intros fuel. revert s. induction fuel as [|f IH]; intros s; [reflexivity|]. cbn [replace_loop]. destruct s; cbn; rewrite IH; reflexivity. Qed.
Lemma replace_same s x : x <> [] -> str_replace s x x = Some s.
Proof.
  intros N. destruct (replace_total x x N (S (length s)) s (le_n _)) as (t & E & R). unfold str_replace. rewrite E. f_equal. clear E.
  induction R as [|a s t H R IH]; [reflexivity|]. rewrite IH. reflexivity.
Qed.

(** ** Trim *)
Lemma skip_blank_spec s : exists a, s = a ++ skip_blank s /\ Forall blank_char a /\ (forall c r, skip_blank s = c :: r -> ~ blank_char c).
Proof.
  induction s as [|c s (a & E & F & H)]; [exists []; repeat split; [constructor|discriminate]|]. cbn [skip_blank]. destruct (is_blank c) eqn:B.
  - apply blank_spec in B. exists (c :: a). cbn. rewrite <- E. auto.
  - apply blank_false in B. exists []. repeat split; [constructor|]. intros ? ? Q. injection Q as <- <-. exact B.
Qed.
Lemma trim_lemma s : (exists a b, s = a ++ str_trim s ++ b /\ Forall blank_char a /\ Forall blank_char b) /\ trimmed (str_trim s).
Proof.
  unfold str_trim. destruct (skip_blank_spec s) as (a & E & F & H). destruct (skip_blank_spec (rev (skip_blank s))) as (b & E2 & F2 & H2).
  remember (skip_blank (rev (skip_blank s))) as m eqn:Em. assert (skip_blank s = rev m ++ rev b) as E3.
  { rewrite <- (rev_involutive (skip_blank s)), E2, rev_app_distr. reflexivity. }
  split.
  - exists a, (rev b). split; [rewrite E3 in E; exact E|]. split; [exact F|]. apply Forall_rev. exact F2.
  - split.
    + intros c r Q. eapply H. rewrite E3, Q. reflexivity.
    + intros c r Q. eapply H2. rewrite <- (rev_involutive m), Q, rev_app_distr. reflexivity.
Qed.
Lemma trimmed_id s : trimmed s -> str_trim s = s.
Proof.
  intros [A B]. unfold str_trim. assert (skip_blank s = s) as ->.
  { destruct s as [|c s]; [reflexivity|]. cbn. rewrite (proj2 (blank_false c) (A c s eq_refl)). reflexivity. }
  assert (skip_blank (rev s) = rev s) as ->.
  { destruct (rev s) as [|c r] eqn:R; [reflexivity|]. cbn. rewrite (proj2 (blank_false c)); [reflexivity|]. apply (B c (rev r)).
    rewrite <- (rev_involutive s), R. reflexivity. }
  apply rev_involutive.
Qed.
Lemma trim_twice s : str_trim (str_trim s) = str_trim s.
Proof. apply trimmed_id. apply trim_lemma. Qed.

(** ** Entities *)
Lemma unescape_at (e : string) v s f : (forall t, In t ["&amp;"; "&quot;"; "&apos;"; "&lt;"; "&gt;"]%string -> starts (str t) (str e ++ s) = (if (t =? e)%string then true else false)) ->
  In (e, v) [("&amp;", 38); ("&quot;", 34); ("&apos;", 39); ("&lt;", 60); ("&gt;", 62)]%string%Z -> unescape (S f) (str e ++ s) = v :: unescape f s.
Proof.
  intros H I. cbn [unescape]. rewrite !H by (cbn; tauto). cbn in I.
  destruct I as [E|[E|[E|[E|[E|[]]]]]]; injection E as <- <-; reflexivity.
Qed.
Lemma unescape_lemma : forall s fuel, length (html_escape s) <= fuel -> unescape fuel (html_escape s) = s.
Proof.
  induction s as [|c s IH]; intros fuel L; [destruct fuel; reflexivity|].
  change (html_escape (c :: s)) with (escape_char c ++ html_escape s) in *. rewrite app_length in L. unfold escape_char in L |- *.
  assert (forall e v, In (e, v) [("&amp;", 38); ("&quot;", 34); ("&apos;", 39); ("&lt;", 60); ("&gt;", 62)]%string%Z ->
    length (str e) + length (html_escape s) <= fuel -> unescape fuel (str e ++ html_escape s) = v :: s) as Q.
  { intros e v I0 L0. assert (4 <= length (str e)) by (cbn in I0; destruct I0 as [E|[E|[E|[E|[E|[]]]]]]; injection E as <- <-; vm_compute; lia).
    destruct fuel as [|f]; [lia|]. rewrite (unescape_at e v); [f_equal; apply IH; lia| |exact I0].
    intros t It. cbn in I0. destruct I0 as [E|[E|[E|[E|[E|[]]]]]]; injection E as <- <-; cbn in It;
      destruct It as [<-|[<-|[<-|[<-|[<-|[]]]]]]; reflexivity. }
  destruct (Z.eqb_spec c 38) as [->|N1]; [apply Q; [cbn; tauto|exact L]|]. destruct (Z.eqb_spec c 34) as [->|N2]; [apply Q; [cbn; tauto|exact L]|].
  destruct (Z.eqb_spec c 39) as [->|N3]; [apply Q; [cbn; tauto|exact L]|]. destruct (Z.eqb_spec c 60) as [->|N4]; [apply Q; [cbn; tauto|exact L]|].
  destruct (Z.eqb_spec c 62) as [->|N5]; [apply Q; [cbn; tauto|exact L]|].
  destruct fuel as [|f]; [cbn in L; lia|]. cbn [app unescape].
  assert (forall t, starts (38%Z :: t) (c :: html_escape s) = false) as St by (intros t; cbn; apply Z.eqb_neq in N1; rewrite Z.eqb_sym, N1; reflexivity).
  change (str "&amp;") with (38 :: str "amp;")%Z. change (str "&quot;") with (38 :: str "quot;")%Z. change (str "&apos;") with (38 :: str "apos;")%Z.
  change (str "&lt;") with (38 :: str "lt;")%Z. change (str "&gt;") with (38 :: str "gt;")%Z. rewrite !St. rewrite IH; [reflexivity|]. cbn in L. lia.
Qed.
Lemma escape_clean s c : In c (html_escape s) -> ~ In c [34; 39; 60; 62]%Z.
Proof.
  unfold html_escape. rewrite in_flat_map. intros (x & _ & H) I. unfold escape_char in H. cbn in I.
  destruct (Z.eqb_spec x 38); [vm_compute in H; intuition congruence|]. destruct (Z.eqb_spec x 34); [vm_compute in H; intuition congruence|].
  destruct (Z.eqb_spec x 39); [vm_compute in H; intuition congruence|]. destruct (Z.eqb_spec x 60); [vm_compute in H; intuition congruence|].
  destruct (Z.eqb_spec x 62); [vm_compute in H; intuition congruence|]. destruct H as [<-|[]]. intuition congruence.
Qed.
Lemma center_lemma s pad n : length s < n -> exists a b, center s pad n = (repeat pad a ++ s ++ repeat pad b, true) /\ a + length s + b = n /\ a <= b <= a + 1.
Proof.
  intros L. unfold center. destruct (n <=? length s) eqn:E; [apply Nat.leb_le in E; lia|]. eexists _, _. split; [reflexivity|].
  pose proof (Nat.div_mod (n - length s) 2 ltac:(lia)). pose proof (Nat.mod_upper_bound (n - length s) 2 ltac:(lia)). lia.
Qed.

(** ** Quoted strings *)
Lemma quoted_inside esc rm keep p : esc <> 34%Z -> forall cur rest,
  quoted_loop esc rm keep QQuoted cur (flat_map (quote_char esc) p ++ 34%Z :: rest) = quoted_loop esc rm keep QString (cur ++ p ++ (if rm then [] else [34%Z])) rest.
Proof.
  intros N. induction p as [|c p IH]; intros cur rest; [reflexivity|]. cbn [flat_map]. unfold quote_char at 1.
  destruct (Z.eqb_spec c 34) as [->|N1]; [|destruct (Z.eqb_spec c esc) as [->|N2]]; cbn [orb app quoted_loop].
  - rewrite (proj2 (Z.eqb_neq esc 34) N), Z.eqb_refl. cbn [andb orb Z.eqb Pos.eqb]. rewrite IH, <- app_assoc. reflexivity.
  - rewrite (proj2 (Z.eqb_neq esc 34) N), Z.eqb_refl. cbn [andb orb]. rewrite IH, <- app_assoc. reflexivity.
  - rewrite (proj2 (Z.eqb_neq c 34) N1), (proj2 (Z.eqb_neq c esc) N2). cbn [andb].
    destruct (flat_map (quote_char esc) p ++ 34%Z :: rest) as [|c2 s'] eqn:Es; [destruct (flat_map (quote_char esc) p); discriminate|]. rewrite <- Es, IH, <- app_assoc. reflexivity.
Qed.
Lemma quoted_first esc rm keep p rest : esc <> 34%Z ->
  quoted_loop esc rm keep QNone [] (quoted esc p ++ rest) = quoted_loop esc rm keep QString ((if rm then [] else [34%Z]) ++ p ++ (if rm then [] else [34%Z])) rest.
Proof.
  intros N. unfold quoted. change (([34%Z] ++ flat_map (quote_char esc) p ++ [34%Z]) ++ rest) with (34%Z :: (flat_map (quote_char esc) p ++ [34%Z]) ++ rest).
  rewrite <- app_assoc. cbn [app]. cbn [quoted_loop is_blank Z.eqb Z.leb Z.compare Pos.compare Pos.compare_cont Pos.eqb andb orb]. apply (quoted_inside esc rm keep p N).
Qed.
Lemma quoted_space esc rm keep cur s : quoted_loop esc rm keep QString cur (32%Z :: s) = cur :: quoted_loop esc rm keep QNone [] s.
Proof. reflexivity. Qed.
Lemma row_lemma esc rm keep ps : esc <> 34%Z -> (rm = true -> keep = false -> last ps [0%Z] <> []) -> (keep = true -> ps <> []) ->
  split_quoted (row esc ps) esc rm keep = map (bounded_by_quotes rm) ps.
Proof.
  intros N H K. unfold split_quoted, row. destruct ps as [|p ps]; [destruct keep; [destruct (K eq_refl eq_refl)|reflexivity]|]. clear K.
  revert p H. induction ps as [|q ps IH]; intros p H.
  - cbn [map str_join]. rewrite <- (app_nil_r (quoted esc p)), (quoted_first esc rm keep p [] N). destruct rm; cbn.
    + rewrite app_nil_r. cbn in H. destruct p; [|reflexivity]. destruct keep; [reflexivity|]. destruct (H eq_refl eq_refl eq_refl).
    + reflexivity.
  - change (str_join [32%Z] (map (quoted esc) (p :: q :: ps))) with (quoted esc p ++ 32%Z :: str_join [32%Z] (map (quoted esc) (q :: ps))).
    rewrite (quoted_first esc rm keep p _ N).
    rewrite quoted_space, (IH q H). cbn [map]. f_equal. destruct rm; cbn; [apply app_nil_r|reflexivity].
Qed.

(** ** Environment variables *)
Lemma word_char_spec c : word_char c = true <-> name_char c.
Proof. unfold word_char, name_char. rewrite !orb_true_iff, !andb_true_iff, !Z.leb_le, Z.eqb_eq. lia. Qed.
Lemma word_of_spec n r : Forall name_char n -> match r with c :: _ => ~ name_char c | [] => True end -> word_of_text (n ++ r) = (n, r).
Proof.
  induction 1 as [|c n H F IH]; intros B; cbn [app word_of_text].
  - destruct r as [|c r]; [reflexivity|]. cbn [word_of_text]. destruct (word_char c) eqn:W; [apply word_char_spec in W; contradiction|reflexivity].
  - rewrite (proj2 (word_char_spec c) H), IH by exact B. reflexivity.
Qed.
Lemma expand_text env s : ~ In 36%Z s -> ~ In 92%Z s -> forall fuel r, length s <= fuel -> expand_loop env fuel (s ++ r) = s ++ expand_loop env (fuel - length s) r.
Proof.
  induction s as [|c s IH]; intros A B fuel r L; [cbn; rewrite Nat.sub_0_r; reflexivity|]. destruct fuel as [|f]; [cbn in L; lia|]. cbn [app expand_loop].
  destruct (Z.eqb_spec c 36) as [->|_]; [destruct A; left; reflexivity|]. destruct (Z.eqb_spec c 92) as [->|_]; [destruct B; left; reflexivity|].
  rewrite IH; [reflexivity| | |cbn in L; lia]; intros X; [apply A|apply B]; right; exact X.
Qed.
Lemma template_lemma env l : template l -> forall fuel, length (flat_map written l) <= fuel -> expand_loop env fuel (flat_map written l) = flat_map (meaning env) l.
Proof.
  induction l as [|p l IH]; intros T fuel L; [destruct fuel; reflexivity|]. destruct T as [P T]. cbn [flat_map] in *. rewrite app_length in L.
  destruct p as [s| |n|n|n]; cbn [written meaning] in *.
  - destruct P as [A B]. rewrite (expand_text env s A B) by lia. f_equal. apply IH; [exact T|lia].
  - destruct fuel as [|f]; [cbn in L; lia|]. cbn [app expand_loop]. zlit. cbn [orb]. cbn in L. f_equal. apply IH; [exact T|lia].
  - destruct P as (F & N & B). destruct fuel as [|f]; [cbn in L; lia|]. cbn [length] in L. destruct n as [|c n]; [congruence|].
    cbn [app]. change (c :: n ++ flat_map written l) with ((c :: n) ++ flat_map written l). remember (c :: n) as w eqn:Ew.
    assert (Hc : (c =? 40)%Z = false /\ (c =? 123)%Z = false).
    { rewrite Ew in F. inversion F as [|? ? Hc ?]; subst. unfold name_char in Hc. rewrite !Z.eqb_neq. lia. }
    cbn [expand_loop]. zlit. destruct (w ++ flat_map written l) as [|c2 s2] eqn:Es; [subst w; discriminate|].
    assert (c2 = c) as -> by (subst w; cbn in Es; congruence). destruct Hc as [-> ->]. rewrite <- Es, (word_of_spec w _ F B).
    rewrite IH by (try exact T; subst w; cbn in L |- *; lia). destruct (env w); reflexivity.
  - destruct fuel as [|f]; [cbn in L; lia|]. cbn [app]. cbn [expand_loop]. zlit. rewrite <- app_assoc.
    rewrite (word_of_spec n ([41%Z] ++ flat_map written l) P) by (unfold name_char; cbn; lia). cbn [app]. zlit.
    rewrite !app_length in L. cbn in L. rewrite IH by (try exact T; lia). destruct (env n); cbn; [reflexivity|]. rewrite <- app_assoc. reflexivity.
  - destruct fuel as [|f]; [cbn in L; lia|]. cbn [app]. cbn [expand_loop]. zlit. rewrite <- app_assoc.
    rewrite (word_of_spec n ([125%Z] ++ flat_map written l) P) by (unfold name_char; cbn; lia). cbn [app]. zlit.
    rewrite !app_length in L. cbn in L. rewrite IH by (try exact T; lia). destruct (env n); cbn; [reflexivity|]. rewrite <- app_assoc. reflexivity.
Qed.
Lemma expand_lemma env l : template l -> expand env (flat_map written l) = flat_map (meaning env) l.
Proof. intros T. apply template_lemma; [exact T|apply le_n]. Qed.

(** ** Command lines *)
Lemma argv_plain a : (forall c, In c a -> ~ blank_char c) -> a <> [] -> forall ins cur rest,
  argv_loop false false ins cur (flat_map escape_arg_char a ++ rest) = argv_loop false false true (cur ++ a) rest.
Proof.
  induction a as [|c a IH]; intros B N ins cur rest; [congruence|]. cbn [flat_map].
  assert (argv_loop false false ins cur ((escape_arg_char c ++ flat_map escape_arg_char a) ++ rest) = argv_loop false false true (cur ++ [c]) (flat_map escape_arg_char a ++ rest)) as ->.
  { assert (is_blank c = false) as Bc by (apply blank_false; apply B; left; reflexivity). unfold escape_arg_char at 1.
    destruct (Z.eqb_spec c 92) as [->|N1]; [|destruct (Z.eqb_spec c 34) as [->|N2]; [|destruct (Z.eqb_spec c 39) as [->|N3]]]; cbn [app].
    1-3: cbn [argv_loop]; change (is_blank 92) with false; rewrite !andb_false_r; reflexivity.
    cbn [argv_loop]. rewrite Bc, !andb_false_r. apply Z.eqb_neq in N1, N2, N3. rewrite N1, N2, N3. reflexivity. }
  destruct a as [|d a]; [reflexivity|]. rewrite IH; [rewrite <- app_assoc; reflexivity| |discriminate]. intros x Hx. apply B. right. exact Hx.
Qed.
Lemma argv_quoted a : forall cur rest,
  argv_loop true false true cur (flat_map escape_arg_char a ++ rest) = argv_loop true false true (cur ++ a) rest.
Proof.
  induction a as [|c a IH]; intros cur rest; [cbn; rewrite app_nil_r; reflexivity|]. cbn [flat_map].
  assert (argv_loop true false true cur ((escape_arg_char c ++ flat_map escape_arg_char a) ++ rest) = argv_loop true false true (cur ++ [c]) (flat_map escape_arg_char a ++ rest)) as ->.
  { unfold escape_arg_char at 1.
    destruct (Z.eqb_spec c 92) as [->|N1]; [|destruct (Z.eqb_spec c 34) as [->|N2]; [|destruct (Z.eqb_spec c 39) as [->|N3]]]; try reflexivity.
    cbn [app argv_loop negb andb orb]. apply Z.eqb_neq in N1, N2. rewrite N1, N2, !andb_false_r. reflexivity. }
  rewrite IH, <- app_assoc. reflexivity.
Qed.
Lemma argv_arg a rest : sound_arg a -> argv_loop false false false [] (escape_arg a ++ rest) = argv_loop false false true a rest.
Proof.
  intros Sa. unfold escape_arg. destruct (among 32 a) eqn:A.
  - cbn [app]. cbn [argv_loop andb negb orb]. zlit. cbn [andb]. rewrite <- app_assoc, (argv_quoted a). reflexivity.
  - apply among_false in A. destruct Sa as [Sa|Sa]; [contradiction|]. cbn [app]. rewrite app_nil_r. destruct a as [|c a]; [reflexivity|].
    destruct (flat_map escape_arg_char (c :: a)) as [|x y] eqn:E.
    + exfalso. cbn in E. apply app_eq_nil in E as [E _]. unfold escape_arg_char in E. repeat match type of E with context [if ?b then _ else _] => destruct b end; discriminate.
    + rewrite <- E. apply (argv_plain (c :: a)); [exact Sa|discriminate].
Qed.
Lemma argv_lemma l : Forall sound_arg l -> to_argv (to_command_line l) = l.
Proof.
  unfold to_argv, to_command_line. induction 1 as [|a l Sa F IH]; [reflexivity|]. destruct l as [|b l].
  - cbn [map str_join]. rewrite <- (app_nil_r (escape_arg a)), (argv_arg a [] Sa). reflexivity.
  - change (str_join [32%Z] (map escape_arg (a :: b :: l))) with (escape_arg a ++ 32%Z :: str_join [32%Z] (map escape_arg (b :: l))).
    rewrite (argv_arg a _ Sa). change (argv_loop false false true a (32%Z :: str_join [32%Z] (map escape_arg (b :: l)))) with (a :: argv_loop false false false [] (str_join [32%Z] (map escape_arg (b :: l)))).
    rewrite IH. reflexivity.
Qed.
Definition blank_free (a : text) : Prop := forall c, In c a -> ~ blank_char c.
Lemma argv_pieces a : ~ In 32%Z a -> forall ins cur, blank_free cur -> (ins = false -> cur = []) -> exists ps, Forall blank_free ps /\
  (forall r, argv_loop false false ins cur (flat_map escape_arg_char a ++ 32%Z :: r) = ps ++ argv_loop false false false [] r) /\
  argv_loop false false ins cur (flat_map escape_arg_char a) = ps.
Proof.
  induction a as [|c a IH]; intros S ins cur Bc Hc.
  - destruct ins; [exists [cur]; repeat split; auto|]. rewrite (Hc eq_refl). exists []. repeat split; auto.
  - assert (S' : ~ In 32%Z a) by (intros X; apply S; right; exact X). cbn [flat_map]. destruct (is_blank c) eqn:B.
    + assert (E : escape_arg_char c = [c]).
      { unfold escape_arg_char. destruct (Z.eqb_spec c 92) as [->|]; [discriminate B|]. destruct (Z.eqb_spec c 34) as [->|]; [discriminate B|]. destruct (Z.eqb_spec c 39) as [->|]; [discriminate B|]. reflexivity. }
      destruct (IH S' false [] (fun x H => match H with end) (fun _ => eq_refl)) as (ps & F & R & N). rewrite E.
      assert (ST : forall t, argv_loop false false ins cur (c :: t) = (if ins then [cur] else []) ++ argv_loop false false false [] t).
      { intros t. cbn [argv_loop]. rewrite B. destruct ins; [reflexivity|]. rewrite (Hc eq_refl). cbn [andb negb orb].
        destruct (Z.eqb_spec c 92) as [->|]; [discriminate B|]. destruct (Z.eqb_spec c 34) as [->|]; [discriminate B|]. destruct (Z.eqb_spec c 39) as [->|]; [discriminate B|]. reflexivity. }
      exists ((if ins then [cur] else []) ++ ps). split; [apply Forall_app; split; [destruct ins; auto|exact F]|]. split.
      * intros r. cbn [app]. rewrite ST, R, app_assoc. reflexivity.
      * cbn [app]. rewrite ST, N. reflexivity.
    + assert (NB : ~ blank_char c) by (apply blank_false; exact B).
      assert (ST : forall t, argv_loop false false ins cur (escape_arg_char c ++ t) = argv_loop false false true (cur ++ [c]) t).
      { intros t. pose proof (argv_plain [c]) as P. cbn [flat_map] in P. rewrite app_nil_r in P. apply P; [|discriminate]. intros x [<-|[]]. exact NB. }
      destruct (IH S' true (cur ++ [c])) as (ps & F & R & N); [|discriminate|].
      { intros x X. apply in_app_or in X. destruct X as [X|[<-|[]]]; [exact (Bc x X)|exact NB]. }
      exists ps. split; [exact F|]. split.
      * intros r. rewrite <- app_assoc, ST. apply R.
      * rewrite ST. exact N.
Qed.
Lemma argv_each a : exists ps, Forall sound_arg ps /\ (forall r, to_argv (escape_arg a ++ 32%Z :: r) = ps ++ to_argv r) /\ to_argv (escape_arg a) = ps.
Proof.
  unfold to_argv. destruct (among 32 a) eqn:A.
  - pose proof A as A2. apply among_spec in A2. assert (Sa : sound_arg a) by (left; exact A2). exists [a]. split; [auto|]. split.
    + intros r. rewrite (argv_arg a _ Sa). reflexivity.
    + rewrite <- (app_nil_r (escape_arg a)), (argv_arg a [] Sa). reflexivity.
  - pose proof A as A'. apply among_false in A'. destruct a as [|c a]; [exists [[]]; split; [constructor; [right; intros c []|constructor]|]; split; reflexivity|].
    destruct (argv_pieces (c :: a) A' false [] (fun x H => match H with end) (fun _ => eq_refl)) as (ps & F & R & N).
    assert (E : escape_arg (c :: a) = flat_map escape_arg_char (c :: a)).
    { unfold escape_arg. rewrite A. cbn [app]. rewrite app_nil_r. destruct (flat_map escape_arg_char (c :: a)) eqn:Q; [|reflexivity].
      exfalso. cbn in Q. apply app_eq_nil in Q as [Q _]. unfold escape_arg_char in Q. repeat match type of Q with context [if ?b then _ else _] => destruct b end; discriminate. }
    rewrite E. exists ps. split; [eapply Forall_impl; [|exact F]; intros x X; right; exact X|]. split; assumption.
Qed.
Lemma argv_sound l : Forall sound_arg (to_argv (to_command_line l)).
Proof.
  unfold to_command_line. induction l as [|a l IH]; [constructor|]. destruct (argv_each a) as (ps & F & R & N). destruct l as [|b l].
  - cbn [map str_join]. rewrite N. exact F.
  - change (str_join [32%Z] (map escape_arg (a :: b :: l))) with (escape_arg a ++ 32%Z :: str_join [32%Z] (map escape_arg (b :: l))). rewrite R. apply Forall_app. auto.
Qed.
Lemma argv_exact_lemma l : to_argv (to_command_line l) = l <-> Forall sound_arg l.
Proof. split; [intros E; rewrite <- E; apply argv_sound|apply argv_lemma]. Qed.
Lemma word_of_text_app s n r : word_of_text s = (n, r) -> s = n ++ r.
Proof.
  revert n r. induction s as [|c s IH]; intros n r E; cbn in E; [injection E as <- <-; reflexivity|].
  destruct (word_char c); [destruct (word_of_text s) as [n' r']|]; injection E as <- <-; [rewrite (IH _ _ eq_refl)|]; reflexivity.
Qed.
Lemma expand_unset env : (forall n, env n = None) -> forall fuel s, length s <= fuel -> ~ In 92%Z s -> expand_loop env fuel s = s.
Proof.
  intros U. induction fuel as [|f IH]; intros s L B; [destruct s; [reflexivity|cbn in L; lia]|]. destruct s as [|c s]; [reflexivity|]. cbn [expand_loop].
  destruct (Z.eqb_spec c 36) as [->|_].
  - assert (forall s1 n r, word_of_text s1 = (n, r) -> length s1 <= length s -> (forall x, In x s1 -> In x s) ->
      forall r', (exists g, r = g ++ r') -> expand_loop env f r' = r') as Q.
    { intros s1 n r W Ls Inc r' [g ->]. apply word_of_text_app in W. subst s1. apply IH.
      - rewrite !app_length in Ls. cbn in L. lia.
      - intros X. apply B. right. apply Inc. rewrite !in_app_iff. auto. }
    assert (forall s1, length s1 <= length s -> (forall x, In x s1 -> In x s) -> forall pre,
      (let (name, r) := word_of_text s1 in (match env name with Some v => v | None => pre ++ name end) ++ expand_loop env f r) = pre ++ s1) as Q1.
    { intros s1 Ls Inc pre. destruct (word_of_text s1) as [n r] eqn:W. rewrite U, (Q s1 n r W Ls Inc r) by (exists []; reflexivity).
      rewrite (word_of_text_app s1 n r W), app_assoc. reflexivity. }
    assert (forall b s1, length s1 <= length s -> (forall x, In x s1 -> In x s) -> forall pre,
      (let (name, r) := word_of_text s1 in
       match r with
       | c3 :: r' => if (c3 =? b)%Z then (match env name with Some v => v | None => pre ++ name end) ++ (match env name with Some _ => [] | None => [b] end) ++ expand_loop env f r'
                     else (match env name with Some v => v | None => pre ++ name end) ++ expand_loop env f r
       | [] => (match env name with Some v => v | None => pre ++ name end) ++ expand_loop env f r
       end) = pre ++ s1) as Q2.
    { intros b s1 Ls Inc pre. destruct (word_of_text s1) as [n r] eqn:W. rewrite U. pose proof (word_of_text_app s1 n r W) as E1. destruct r as [|c3 r'].
      - rewrite (Q s1 n [] W Ls Inc []) by (exists []; reflexivity). rewrite E1, <- app_assoc. reflexivity.
      - destruct (Z.eqb_spec c3 b) as [->|_].
        + rewrite (Q s1 n _ W Ls Inc r') by (exists [b]; reflexivity). rewrite E1, <- app_assoc. reflexivity.
        + rewrite (Q s1 n _ W Ls Inc (c3 :: r')) by (exists []; reflexivity). rewrite E1, <- app_assoc. reflexivity. }
    destruct s as [|c2 s2].
    + apply (Q1 [] (le_n _) (fun x H => H) [36%Z]).
    + destruct (Z.eqb_spec c2 40) as [->|_]; [|destruct (Z.eqb_spec c2 123) as [->|_]].
      * apply (Q2 41%Z s2 ltac:(cbn; lia) (fun x H => or_intror H) [36%Z; 40%Z]).
      * apply (Q2 125%Z s2 ltac:(cbn; lia) (fun x H => or_intror H) [36%Z; 123%Z]).
      * apply (Q1 (c2 :: s2) (le_n _) (fun x H => H) [36%Z]).
  - destruct (Z.eqb_spec c 92) as [->|_]; [destruct B; left; reflexivity|]. f_equal. apply IH; [cbn in L; lia|]. intros X. apply B. right. exact X.
Qed.
Lemma expand_unset_lemma env s : (forall n, env n = None) -> ~ In 92%Z s -> expand env s = s.
Proof. intros U B. apply expand_unset; [exact U|apply le_n|exact B]. Qed.

(** ** Splitting a command line *)
Lemma argv_inside dq sq c cur s : (dq || sq = true)%bool -> c <> 39%Z -> c <> 34%Z -> c <> 92%Z ->
  argv_loop dq sq true cur (c :: s) = argv_loop dq sq true (cur ++ [c]) s.
Proof.
  intros Q N1 N2 N3. cbn [argv_loop]. apply Z.eqb_neq in N1, N2, N3. rewrite N1, N2, N3, Q.
  destruct dq, sq; try discriminate; cbn; reflexivity.
Qed.
Lemma end_argv : forall n s dq sq cur a r, length s <= n -> (dq && sq = false)%bool -> spaces_only s -> end_of_arg dq sq s = (a, r) ->
  s = a ++ r /\ exists x, argv_loop dq sq true cur a = [x] /\ argv_loop dq sq true cur s = x :: to_argv r.
Proof.
  induction n as [|n IH]; intros s dq sq cur a r L Q Sp E.
  - destruct s; [|cbn in L; lia]. injection E as <- <-. split; [reflexivity|]. exists cur. split; reflexivity.
  - destruct s as [|c s]; [injection E as <- <-; split; [reflexivity|]; exists cur; split; reflexivity|].
    assert (Sp' : spaces_only s) by (intros x Hx; apply Sp; right; exact Hx). cbn in L. cbn [end_of_arg] in E.
    destruct (Z.eqb_spec c 92) as [->|N1].
    + destruct s as [|c2 s].
      * injection E as <- <-. split; [reflexivity|]. exists cur. destruct dq, sq; split; reflexivity.
      * destruct (end_of_arg dq sq s) as [a' r'] eqn:E'. injection E as <- <-.
        destruct (IH s dq sq (cur ++ [c2]) a' r') as (-> & x & Ha & Hs); [cbn in L; lia|exact Q|intros y Hy; apply Sp'; right; exact Hy|exact E'|].
        split; [reflexivity|]. exists x. assert (forall t, argv_loop dq sq true cur (92%Z :: c2 :: t) = argv_loop dq sq true (cur ++ [c2]) t) as W by (intros t; destruct dq, sq; reflexivity).
        rewrite !W. auto.
    + destruct ((c =? 32)%Z && negb dq && negb sq)%bool eqn:B.
      * injection E as <- <-. apply andb_prop in B as [B Bs]. apply andb_prop in B as [B Bd]. apply Z.eqb_eq in B. subst c.
        destruct dq; [discriminate|]. destruct sq; [discriminate|]. split; [reflexivity|]. exists cur. split; reflexivity.
      * destruct (Z.eqb_spec c 34) as [->|N2].
        { destruct (end_of_arg (if sq then dq else negb dq) sq s) as [a' r'] eqn:E'. injection E as <- <-.
          assert (exists cur', forall t, argv_loop dq sq true cur (34%Z :: t) = argv_loop (if sq then dq else negb dq) sq true cur' t) as [cur' W].
          { destruct sq; [exists (cur ++ [34%Z])|exists cur]; intros t; destruct dq; reflexivity || discriminate. }
          destruct (IH s (if sq then dq else negb dq) sq cur' a' r') as (-> & x & Ha & Hs); [lia|destruct sq; [exact Q|apply andb_false_r]|exact Sp'|exact E'|].
          split; [reflexivity|]. exists x. rewrite !W. auto. }
        destruct (Z.eqb_spec c 39) as [->|N3].
        { destruct (end_of_arg dq (if dq then sq else negb sq) s) as [a' r'] eqn:E'. injection E as <- <-.
          assert (exists cur', forall t, argv_loop dq sq true cur (39%Z :: t) = argv_loop dq (if dq then sq else negb sq) true cur' t) as [cur' W].
          { destruct dq; [exists (cur ++ [39%Z])|exists cur]; intros t; destruct sq; reflexivity || discriminate. }
          destruct (IH s dq (if dq then sq else negb sq) cur' a' r') as (-> & x & Ha & Hs); [lia|destruct dq; [exact Q|reflexivity]|exact Sp'|exact E'|].
          split; [reflexivity|]. exists x. rewrite !W. auto. }
        destruct (end_of_arg dq sq s) as [a' r'] eqn:E'. injection E as <- <-.
        destruct (IH s dq sq (cur ++ [c]) a' r') as (-> & x & Ha & Hs); [lia|exact Q|exact Sp'|exact E'|].
        split; [reflexivity|]. exists x.
        assert (forall t, argv_loop dq sq true cur (c :: t) = argv_loop dq sq true (cur ++ [c]) t) as W.
        { intros t. destruct (dq || sq)%bool eqn:D; [apply argv_inside; assumption|]. destruct dq; [discriminate|]. destruct sq; [discriminate|].
          assert (is_blank c = false) as Bc.
          { apply blank_false. intros X. pose proof (Sp c (or_introl eq_refl) X). subst c. discriminate. }
          cbn [argv_loop]. rewrite Bc. apply Z.eqb_neq in N1, N2, N3. rewrite N1, N2, N3. reflexivity. }
        rewrite !W. auto.
Qed.
Lemma argv_start c s : ~ blank_char c -> argv_loop false false false [] (c :: s) = argv_loop false false true [] (c :: s).
Proof.
  intros B. apply blank_false in B. cbn [argv_loop]. rewrite B. cbn [andb negb orb]. destruct (c =? 39)%Z; [reflexivity|]. destruct (c =? 34)%Z; [reflexivity|].
  destruct (c =? 92)%Z; reflexivity.
Qed.
Lemma argv_skip s : to_argv (skip_blank s) = to_argv s.
Proof.
  unfold to_argv. induction s as [|c s IH]; [reflexivity|]. cbn [skip_blank]. destruct (is_blank c) eqn:B; [|reflexivity]. rewrite IH. cbn [argv_loop]. rewrite B.
  apply blank_spec in B. unfold blank_char in B.
  assert ((c =? 39)%Z = false /\ (c =? 34)%Z = false /\ (c =? 92)%Z = false) as (-> & -> & ->) by (rewrite !Z.eqb_neq; lia). reflexivity.
Qed.
Lemma first_argv s c s' : spaces_only s -> skip_blank s = c :: s' -> forall a r, end_of_arg false false (c :: s') = (a, r) ->
  exists g x, s = g ++ a ++ r /\ a <> [] /\ to_argv a = [x] /\ to_argv s = x :: to_argv r.
Proof.
  intros Sp E a r Ea. destruct (skip_blank_spec s) as (g & Es & F & H). pose proof (H c s' E) as Bc. rewrite E in Es.
  destruct (end_argv (length (c :: s')) (c :: s') false false [] a r) as (E1 & x & Ha & Hs); [apply le_n|reflexivity| |exact Ea|].
  { intros y Hy. apply Sp. rewrite Es. apply in_or_app. right. exact Hy. }
  exists g, x. assert (a <> []) as Na.
  { intros ->. cbn [end_of_arg] in Ea. unfold blank_char in Bc. destruct (c =? 92)%Z; [destruct s'; [discriminate|destruct (end_of_arg false false s'); discriminate]|].
    assert ((c =? 32)%Z = false) as N by (apply Z.eqb_neq; lia). rewrite N in Ea. cbn [andb] in Ea.
    destruct (c =? 34)%Z; [destruct (end_of_arg (negb false) false s'); discriminate|]. destruct (c =? 39)%Z; [destruct (end_of_arg false (negb false) s'); discriminate|].
    destruct (end_of_arg false false s'); discriminate. }
  rewrite <- E1. split; [exact Es|]. split; [exact Na|]. split.
  - destruct a as [|y a]; [congruence|]. injection E1 as <- _. unfold to_argv. rewrite argv_start by exact Bc. exact Ha.
  - rewrite <- argv_skip, E. unfold to_argv. rewrite argv_start by exact Bc. exact Hs.
Qed.
Lemma split_cl_lemma : forall fuel left s, length s < fuel -> spaces_only s -> left <> Some 0 ->
  flat_map to_argv (split_cl_loop fuel left s) = to_argv s /\
  (forall k p, nth_error (split_cl_loop fuel left s) k = Some p -> (forall m, left = Some m -> S k < m) -> exists x, to_argv p = [x]) /\
  (forall m, left = Some m -> length (split_cl_loop fuel left s) <= m /\
     (length (split_cl_loop fuel left s) = m -> exists a, s = a ++ last (split_cl_loop fuel left s) [])).
Proof.
  induction fuel as [|f IH]; intros left s L Sp N; [lia|].
  assert (split_cl_loop (S f) left s = match skip_blank s with [] => [] | s1 => match left with Some 1 => [s1] | _ => let (a, r) := end_of_arg false false s1 in a :: split_cl_loop f (option_map pred left) r end end) as ->.
  { destruct left as [[|m]|]; [congruence| |]; reflexivity. }
  destruct (skip_blank s) as [|c s'] eqn:E.
  - rewrite <- argv_skip, E. split; [reflexivity|]. split; [intros [|k] p H; discriminate|]. intros m Hm. cbn. split; [lia|]. intros <-. congruence.
  - destruct (end_of_arg false false (c :: s')) as [a r] eqn:Ea. destruct (first_argv s c s' Sp E a r Ea) as (g & x & Es & Na & Ha & Hs).
    assert (left = Some 1 \/ option_map pred left <> Some 0) as [->|N'].
    { destruct left as [[|[|m]]|]; [congruence|auto| |]; right; discriminate. }
    + cbn [flat_map]. rewrite app_nil_r, <- E, argv_skip. split; [reflexivity|]. split.
      * intros k p Hk Hm. specialize (Hm 1 eq_refl). lia.
      * intros m Hm. injection Hm as <-. cbn. split; [lia|]. intros _. destruct (skip_blank_spec s) as (g' & Es' & _ & _). exists g'. exact Es'.
    + match goal with |- context [flat_map to_argv ?X = _] => assert (X = a :: split_cl_loop f (option_map pred left) r) as W end.
      { destruct left as [[|[|m]]|]; [congruence|destruct N'; reflexivity| |]; cbv zeta; rewrite Ea; reflexivity. }
      rewrite W. clear W.
      assert (length r < f).
      { apply (f_equal (@length Z)) in Es. rewrite !app_length in Es. destruct a; [congruence|]. cbn in Es. lia. }
      destruct (IH (option_map pred left) r) as (A & B & C); [lia| |exact N'|].
      { intros y Hy. apply Sp. rewrite Es, !in_app_iff. auto. }
      split; [cbn [flat_map]; rewrite A, Ha, Hs; reflexivity|]. split.
      * intros [|k] p Hk Hm; [injection Hk as <-; eauto|]. apply (B k p Hk). intros m Hm'. destruct left as [[|m0]|]; [congruence| |discriminate].
        cbn in Hm'. injection Hm' as <-. specialize (Hm _ eq_refl). lia.
      * intros m ->. destruct m as [|m]; [congruence|]. destruct (C m eq_refl) as [C1 C2]. cbn [length]. split; [lia|]. intros Lm.
        destruct C2 as [a2 C2]; [lia|]. destruct (split_cl_loop f (option_map pred (Some (S m))) r) as [|y l] eqn:El.
        { cbn in Lm. assert (m = 0) by lia. subst m. destruct N'. reflexivity. }
        exists (g ++ a ++ a2). rewrite Es. rewrite <- !app_assoc. cbn [last] in C2 |- *. rewrite C2 at 1. reflexivity.
Qed.
Lemma split_command_line_lemma s max : spaces_only s ->
  flat_map to_argv (split_command_line s max) = to_argv s /\
  (forall k p, nth_error (split_command_line s max) k = Some p -> max = 0 \/ S k < max -> exists x, to_argv p = [x]) /\
  (max <> 0 -> length (split_command_line s max) <= max /\
     (length (split_command_line s max) = max -> exists a, s = a ++ last (split_command_line s max) [])).
Proof.
  intros Sp. unfold split_command_line. destruct (split_cl_lemma (S (length s)) (match max with 0 => None | _ => Some max end) s) as (A & B & C); [lia|exact Sp|destruct max; discriminate|].
  split; [exact A|]. split.
  - intros k p Hk Hm. apply (B k p Hk). intros m Em. destruct max; [discriminate|]. injection Em as <-. destruct Hm; lia.
  - intros Nm. destruct max as [|max]; [congruence|]. apply C. reflexivity.
Qed.
Lemma extra_part esc p : esc <> 34%Z -> split_quoted (row esc [p] ++ [32%Z]) esc true true = [p; []].
Proof. intros N. unfold split_quoted, row. cbn [map str_join]. rewrite (quoted_first esc true true p [32%Z] N), quoted_space. cbn. rewrite app_nil_r. reflexivity. Qed.
Lemma unclosed_brace env v : env (str "X") = Some v -> expand env (str "${X,") = v ++ str ",".
Proof.
  intros H. unfold expand. change (length (str "${X,")) with 4. change (str "${X,") with (36 :: 123 :: str "X,")%Z. cbn [expand_loop]. zlit. cbv beta iota zeta.
  change (word_of_text (str "X,")) with (str "X", [44%Z]). cbv beta iota zeta. rewrite H. zlit. reflexivity.
Qed.

Lemma blanks_front esc rm keep bs s : Forall blank_char bs -> split_quoted (bs ++ s) esc rm keep = split_quoted s esc rm keep.
Proof.
  induction 1 as [|b bs B _ IH]; [reflexivity|]. unfold split_quoted in *. cbn [app quoted_loop]. apply blank_spec in B. rewrite B. exact IH.
Qed.
Lemma blanks_lemma esc rm keep p b bs s : esc <> 34%Z -> blank_char b -> Forall blank_char bs ->
  split_quoted (bs ++ s) esc rm keep = split_quoted s esc rm keep /\
  split_quoted (quoted esc p ++ b :: bs ++ s) esc rm keep = bounded_by_quotes rm p :: split_quoted s esc rm keep.
Proof.
  intros N B H. split; [apply blanks_front, H|]. unfold split_quoted at 1. rewrite (quoted_first esc rm keep p _ N).
  cbn [quoted_loop]. apply blank_spec in B. rewrite B.
  change (quoted_loop esc rm keep QNone [] (bs ++ s)) with (split_quoted (bs ++ s) esc rm keep). rewrite (blanks_front _ _ _ _ _ H).
  f_equal. destruct rm; cbn; [apply app_nil_r|reflexivity].
Qed.
