(** Proofs about paths. *)
From Verif Require Import Base Sample StrModel StrSpec StrProofs PathModel PathSpec.

Lemma some_eq {A} (x y : A) : Some x = Some y -> x = y.
Proof. congruence. Qed.
(** ** Splitting at slashes *)
Definition part (p : text) : Prop := p <> [] /\ ~ In 47%Z p.
Notation cut := (str_split [47%Z]).

Lemma pieces_cons d c s ps : In c d -> pieces d s ps -> pieces d (c :: s) ps.
Proof.
  intros I P. inversion P; subst; [constructor; constructor; assumption|].
  change (c :: g ++ p ++ r) with ((c :: g) ++ p ++ r). apply pieces_more; auto.
Qed.
Lemma pieces_app d a b ps qs : pieces d a ps -> pieces d b qs -> begins_with d b -> pieces d (a ++ b) (ps ++ qs).
Proof.
  intros P Q B. induction P as [g F|g p r ps F N Fp Br P IH].
  - induction F as [|c g H F IH]; [exact Q|]. apply pieces_cons; assumption.
  - rewrite <- !app_assoc. apply pieces_more; auto. destruct r; [exact B|exact Br].
Qed.
Lemma pieces_parts s ps : pieces [47%Z] s ps -> Forall part ps.
Proof.
  induction 1 as [|g p r ps F N Fp B P IH]; constructor; auto. split; [exact N|]. intros I. rewrite Forall_forall in Fp. destruct (Fp _ I). left. reflexivity.
Qed.
Lemma cut_parts s : Forall part (cut s).
Proof. apply (pieces_parts s). apply split_lemma. reflexivity. Qed.
Lemma cut_cons s : cut (47%Z :: s) = cut s.
Proof. apply split_lemma. apply pieces_cons; [left; reflexivity|]. apply split_lemma. reflexivity. Qed.
Lemma cut_app a b : cut (a ++ 47%Z :: b) = cut a ++ cut b.
Proof. rewrite <- (cut_cons b). apply split_lemma. apply pieces_app; [apply split_lemma; reflexivity..|left; reflexivity]. Qed.
Lemma cut_snoc a : cut (a ++ [47%Z]) = cut a.
Proof. rewrite cut_app. apply app_nil_r. Qed.
Lemma cut_join cs : Forall part cs -> cut (str_join [47%Z] cs) = cs.
Proof. intros F. apply split_join. eapply Forall_impl; [|exact F]. intros p [A B]. auto. Qed.
Lemma cut_one p : part p -> cut p = [p].
Proof. intros P. apply (cut_join [p]). constructor; [exact P|constructor]. Qed.

(** ** The end of a path *)
Lemma ends_snoc a c : ends_slash (a ++ [c]) = (c =? 47)%Z.
Proof. unfold ends_slash. rewrite rev_app_distr. reflexivity. Qed.
Lemma ends_part a p : part p -> ends_slash (a ++ p) = false.
Proof.
  intros [N I]. destruct p as [|c p] using rev_ind; [congruence|]. rewrite app_assoc, ends_snoc. apply Z.eqb_neq. intros ->. apply I. apply in_or_app. right. left. reflexivity.
Qed.
Lemma join_snoc (cs : list text) p : cs <> [] -> str_join [47%Z] (cs ++ [p]) = str_join [47%Z] cs ++ 47%Z :: p.
Proof.
  induction cs as [|a cs IH]; [congruence|]. intros _. destruct cs as [|b cs]; [reflexivity|].
  change (str_join [47%Z] ((a :: b :: cs) ++ [p])) with (a ++ [47%Z] ++ str_join [47%Z] ((b :: cs) ++ [p])). rewrite IH by discriminate.
  change (str_join [47%Z] (a :: b :: cs)) with (a ++ [47%Z] ++ str_join [47%Z] (b :: cs)). rewrite <- !app_assoc. reflexivity.
Qed.
Lemma ends_join a cs : Forall part cs -> cs <> [] -> ends_slash (a ++ str_join [47%Z] cs) = false.
Proof.
  intros F N. destruct cs as [|p cs _] using rev_ind; [congruence|]. apply Forall_app in F as [F Fp]. inversion Fp as [|? ? P _]; subst.
  destruct cs as [|q cs]; [apply ends_part; exact P|]. rewrite join_snoc by discriminate.
  replace (a ++ str_join [47%Z] (q :: cs) ++ 47%Z :: p) with ((a ++ str_join [47%Z] (q :: cs) ++ [47%Z]) ++ p) by (rewrite <- !app_assoc; reflexivity).
  apply ends_part. exact P.
Qed.
Lemma join_nil cs : Forall part cs -> str_join [47%Z] cs = [] -> cs = [].
Proof. intros F E. rewrite <- (cut_join cs F), E. reflexivity. Qed.
Lemma join_head cs : Forall part cs -> match str_join [47%Z] cs with 47%Z :: _ => False | _ => True end.
Proof.
  intros F. destruct cs as [|p cs]; [exact I|]. inversion F as [|? ? [N P] _]; subst. destruct p as [|c p]; [congruence|].
  assert (c <> 47%Z) by (intros ->; apply P; left; reflexivity). destruct cs; cbn; destruct c as [|q|q]; auto; repeat (destruct q as [q|q|]; auto).
Qed.

(** ** Cleaning in Unix style *)
Lemma to_unix_id s : to_unix Unix s = s.
Proof.
  unfold to_unix. induction s as [|c s IH]; [reflexivity|]. cbn [map]. rewrite IH. f_equal. unfold is_sep. rewrite orb_false_r.
  destruct (Z.eqb_spec c 47) as [->|_]; reflexivity.
Qed.
Lemma abs_unix s : abs_root Unix s = match s with 47%Z :: _ => [47%Z] | _ => [] end.
Proof.
  destruct s as [|c s]; [reflexivity|]. cbn. destruct (Z.eqb_spec c 47) as [->|N]; [reflexivity|].
  destruct c as [|q|q]; auto; repeat (destruct q as [q|q|]; auto); congruence.
Qed.
Lemma is_abs_unix s : is_absolute Unix s = match s with 47%Z :: _ => true | _ => false end.
Proof. unfold is_absolute. rewrite abs_unix. destruct s as [|c s]; [reflexivity|]. destruct c as [|q|q]; auto; repeat (destruct q as [q|q|]; auto). Qed.
Lemma slash_or s : (exists r, s = 47%Z :: r) \/ match s with 47%Z :: _ => False | _ => True end.
Proof. destruct s as [|c s]; [right; exact I|]. destruct (Z.eq_dec c 47) as [->|N]; [left; eauto|]. right. destruct c as [|q|q]; auto; repeat (destruct q as [q|q|]; auto); congruence. Qed.
Lemma clean_list_rel s : match s with 47%Z :: _ => False | _ => True end -> clean_list Unix s = rev (clean_parts false (cut s)).
Proof.
  intros H. destruct s as [|c s]; [reflexivity|]. unfold clean_list. rewrite is_abs_unix, abs_unix, to_unix_id.
  destruct c as [|q|q]; try reflexivity; repeat (destruct q as [q|q|]; try reflexivity); destruct H.
Qed.
Lemma parts_go ps : clean_parts true ps = fold_left go ps [].
Proof. destruct ps as [|p ps]; [reflexivity|]. unfold clean_parts. rewrite andb_false_r. reflexivity. Qed.
Lemma clean_list_abs r cwd : clean_list Unix (47%Z :: r) = rev (place cwd (47%Z :: r)).
Proof. unfold clean_list. rewrite is_abs_unix, abs_unix, to_unix_id, parts_go. unfold place. rewrite cut_cons. reflexivity. Qed.
Lemma place_abs r cwd : place cwd (47%Z :: r) = place_of (47%Z :: r).
Proof. reflexivity. Qed.

Lemma name_part p : name p -> part p.
Proof. intros (A & B & _). split; assumption. Qed.
Lemma names_parts l : Forall name l -> Forall part l.
Proof. apply Forall_impl. exact name_part. Qed.
Lemma part_name p : part p -> eqb p dot = false -> eqb p dots = false -> name p.
Proof. intros [A B] C D. apply eqb_false in C, D. repeat split; auto. Qed.
Lemma name_eqb p : name p -> eqb p dot = false /\ eqb p dots = false.
Proof. intros (_ & _ & A & B). split; apply neq_eqb; assumption. Qed.

Lemma go_names ps : Forall part ps -> forall stk, Forall name stk -> Forall name (fold_left go ps stk).
Proof.
  induction 1 as [|p ps P F IH]; intros stk N; [exact N|]. cbn [fold_left]. apply IH. unfold go. destruct (eqb p dot) eqn:D; [unfold dot in D; rewrite D; exact N|].
  unfold dot in D. rewrite D. destruct (eqb p [46%Z; 46%Z]) eqn:DD; [destruct N; [constructor|assumption]|]. constructor; [|exact N]. apply part_name; assumption.
Qed.
Lemma place_of_names r : Forall name (place_of (47%Z :: r)).
Proof. unfold place_of, place. apply go_names; [apply cut_parts|constructor]. Qed.
Lemma go_all l : Forall name l -> forall stk, fold_left go l stk = rev l ++ stk.
Proof.
  induction 1 as [|p l N F IH]; intros stk; [reflexivity|]. cbn [fold_left rev]. rewrite IH. unfold go. destruct (name_eqb p N) as [A B]. unfold dot, dots in A, B. rewrite A, B, <- app_assoc. reflexivity.
Qed.
(** The clean form of an absolute path. *)
Definition abs_form (cs : list text) (tail : bool) : text := 47%Z :: str_join [47%Z] cs ++ match cs with [] => [] | _ => if tail then [47%Z] else [] end.
Lemma clean_abs r : clean Unix (47%Z :: r) = Some (abs_form (rev (place_of (47%Z :: r))) (ends_slash (47%Z :: r))).
Proof.
  unfold clean. rewrite to_unix_id, abs_unix, to_unix_id, (clean_list_abs r []). fold (place_of (47%Z :: r)).
  pose proof (names_parts _ (place_of_names r)) as N. apply Forall_rev in N. remember (rev (place_of (47%Z :: r))) as cs eqn:E. clear E. unfold abs_form. change slash with 47%Z.
  change (ends_slash [47%Z]) with true. cbv beta iota zeta. cbn [app]. destruct (ends_slash (47%Z :: r)).
  - destruct cs as [|p cs]; [reflexivity|]. assert (ends_slash (47%Z :: str_join [47%Z] (p :: cs)) = false) as ->.
    { apply (ends_join [47%Z] (p :: cs)); [exact N|discriminate]. }
    reflexivity.
  - destruct cs as [|p cs]; [reflexivity|]. rewrite app_nil_r. reflexivity.
Qed.
Lemma place_form cs tail : Forall name cs -> place_of (abs_form cs tail) = rev cs.
Proof.
  intros F. unfold place_of, place, abs_form. rewrite cut_cons.
  assert (cut (str_join [47%Z] cs ++ match cs with [] => [] | _ => if tail then [47%Z] else [] end) = cs) as ->.
  { destruct cs as [|p cs]; [reflexivity|]. destruct tail; [rewrite cut_snoc|rewrite app_nil_r]; apply cut_join; apply names_parts; exact F. }
  rewrite go_all by exact F. apply app_nil_r.
Qed.
Lemma ends_form cs tail : Forall name cs -> ends_slash (abs_form cs tail) = match cs with [] => true | _ => tail end.
Proof.
  intros F. unfold abs_form. destruct cs as [|p cs]; [reflexivity|]. destruct tail.
  - change (47%Z :: str_join [47%Z] (p :: cs) ++ [47%Z]) with ((47%Z :: str_join [47%Z] (p :: cs)) ++ [47%Z]). apply ends_snoc.
  - rewrite app_nil_r. apply (ends_join [47%Z] (p :: cs)); [apply names_parts; exact F|discriminate].
Qed.
Lemma clean_form cs tail : Forall name cs -> clean Unix (abs_form cs tail) = Some (abs_form cs tail).
Proof.
  intros F. unfold abs_form at 1. rewrite clean_abs. f_equal. fold (abs_form cs tail). rewrite place_form, rev_involutive, ends_form by exact F.
  destruct cs; reflexivity.
Qed.

(** Relative paths: the stack of components. *)
Inductive nf : list text -> Prop :=
| nf_nil : nf []
| nf_dot : nf [dot]
| nf_name p stk : name p -> nf stk -> nf (p :: stk)
| nf_dots stk : Forall (eq dots) stk -> nf stk -> nf (dots :: stk).
Lemma dots_not_name : ~ name dots. Proof. intros (_ & _ & _ & H). apply H. reflexivity. Qed.
Lemma dot_not_name : ~ name dot. Proof. intros (_ & _ & H & _). apply H. reflexivity. Qed.
Lemma nf_step stk p : nf stk -> part p -> nf (clean_step false stk p).
Proof.
  intros N P. unfold clean_step. destruct (eqb p dot) eqn:D; [exact N|]. destruct (eqb p dots) eqn:DD.
  - apply eqb_true in DD. subst p. destruct stk as [|q r]; [apply nf_dots; constructor|]. destruct (eqb q dots) eqn:Q.
    + apply eqb_true in Q. subst q. inversion N as [| |? ? X|? F M]; subst; [destruct (dots_not_name X)|]. apply nf_dots; [constructor; auto|exact N].
    + inversion N as [| |? ? X M|? F M]; subst; [constructor|exact M|]. rewrite eqb_refl in Q. discriminate.
  - apply nf_name; [apply part_name; assumption|exact N].
Qed.
Lemma nf_steps ps : Forall part ps -> forall stk, nf stk -> nf (fold_left (clean_step false) ps stk).
Proof. induction 1 as [|p ps P F IH]; intros stk N; [exact N|]. cbn. apply IH. apply nf_step; assumption. Qed.
Lemma nf_parts ps : Forall part ps -> nf (clean_parts false ps).
Proof.
  intros F. unfold clean_parts. destruct ps as [|p ps]; [constructor|]. destruct (eqb p dot) eqn:D; cbn [andb negb].
  - apply eqb_true in D. subst p. apply nf_steps; [inversion F; assumption|constructor].
  - apply nf_steps; [exact F|constructor].
Qed.
Lemma part_dot : part dot. Proof. split; [discriminate|]. intros [H|[]]; discriminate. Qed.
Lemma part_dots : part dots. Proof. split; [discriminate|]. intros [H|[H|[]]]; discriminate. Qed.
Lemma nf_part stk : nf stk -> Forall part stk.
Proof. induction 1; repeat constructor; auto; try (apply part_dot); try apply part_dots; try (apply name_part; assumption); intros [H|[]]; discriminate. Qed.
Lemma parts_snoc ps p : ps <> [] \/ p <> dot -> clean_parts false (ps ++ [p]) = clean_step false (clean_parts false ps) p.
Proof.
  intros H. unfold clean_parts. destruct ps as [|q ps]; cbn [app].
  - destruct H as [H|H]; [congruence|]. rewrite (neq_eqb p dot H). reflexivity.
  - destruct (eqb q dot && negb false)%bool; [|change (q :: ps ++ [p]) with ((q :: ps) ++ [p])]; rewrite fold_left_app; reflexivity.
Qed.
Lemma nf_stable stk : nf stk -> clean_parts false (rev stk) = stk.
Proof.
  induction 1 as [| |p stk N M IH|stk F M IH]; [reflexivity|reflexivity| |]; cbn [rev].
  - rewrite parts_snoc; [|right; destruct N as (_ & _ & X & _); exact X]. rewrite IH. unfold clean_step. destruct (name_eqb p N) as [-> ->]. reflexivity.
  - rewrite parts_snoc; [|right; discriminate]. rewrite IH. unfold clean_step. change (eqb dots dot) with false. rewrite eqb_refl.
    destruct F as [|q r Q F]; [reflexivity|]. subst q. rewrite eqb_refl. reflexivity.
Qed.

(** The clean form of a relative path. *)
Definition rel_form (cs : list text) (tail : bool) : option text :=
  match cs with [] => if tail then None else Some [] | _ => Some (str_join [47%Z] cs ++ if tail then [47%Z] else []) end.
Lemma clean_rel s : s <> [] -> match s with 47%Z :: _ => False | _ => True end -> clean Unix s = rel_form (clean_list Unix s) (ends_slash s).
Proof.
  intros N H. assert (Forall part (clean_list Unix s)) as F.
  { rewrite clean_list_rel by exact H. apply Forall_rev. apply nf_part. apply nf_parts. apply cut_parts. }
  unfold clean. rewrite to_unix_id, abs_unix. assert (match s with 47%Z :: _ => [47%Z] | _ => [] end = []) as ->.
  { destruct s as [|c s]; [reflexivity|]. destruct c as [|q|q]; auto; repeat (destruct q as [q|q|]; auto); destruct H. }
  cbn [to_unix map app]. destruct s as [|c s]; [congruence|]. remember (clean_list Unix (c :: s)) as cs eqn:E. clear E. unfold rel_form. change slash with 47%Z.
  destruct (ends_slash (c :: s)); destruct cs as [|p cs]; try reflexivity.
  - destruct (str_join [47%Z] (p :: cs)) as [|x y] eqn:J; [apply join_nil in J; [discriminate|exact F]|]. rewrite <- J.
    pose proof (ends_join [] (p :: cs) F ltac:(discriminate)) as En. cbn [app] in En. rewrite En. reflexivity.
  - rewrite app_nil_r. reflexivity.
Qed.
Lemma join_rel (cs : list text) e : Forall part cs -> cs <> [] -> match str_join [47%Z] cs ++ e with 47%Z :: _ => False | _ => True end /\ str_join [47%Z] cs ++ e <> [].
Proof.
  intros F N. pose proof (join_head cs F) as H. destruct (str_join [47%Z] cs) as [|x y] eqn:J; [apply join_nil in J; [congruence|exact F]|]. split; [exact H|discriminate].
Qed.
Lemma clean_rel_form cs tail t : nf (rev cs) -> rel_form cs tail = Some t -> clean_list Unix t = cs /\ clean Unix t = Some t.
Proof.
  intros N E. pose proof (Forall_rev (nf_part _ N)) as F. rewrite rev_involutive in F. unfold rel_form in E. destruct cs as [|p cs].
  - destruct tail; [discriminate|]. injection E as <-. split; reflexivity.
  - apply some_eq in E. subst t. destruct (join_rel (p :: cs) (if tail then [47%Z] else []) F ltac:(discriminate)) as [H M].
    assert (clean_list Unix (str_join [47%Z] (p :: cs) ++ (if tail then [47%Z] else [])) = p :: cs) as C.
    { rewrite clean_list_rel by exact H. assert (cut (str_join [47%Z] (p :: cs) ++ (if tail then [47%Z] else [])) = p :: cs) as ->.
      { destruct tail; [rewrite cut_snoc|rewrite app_nil_r]; apply cut_join; exact F. }
      rewrite <- (rev_involutive (p :: cs)) at 1. rewrite (nf_stable _ N). apply rev_involutive. }
    split; [exact C|]. rewrite clean_rel, C by assumption. unfold rel_form. do 2 f_equal. destruct tail.
    + rewrite ends_snoc. reflexivity.
    + rewrite app_nil_r. pose proof (ends_join [] (p :: cs) F ltac:(discriminate)) as En. cbn [app] in En. rewrite En. reflexivity.
Qed.
Lemma idempotent_lemma s t : clean Unix s = Some t -> clean Unix t = Some t.
Proof.
  intros E. destruct (slash_or s) as [[r ->]|H].
  - rewrite clean_abs in E. injection E as <-. apply clean_form. apply Forall_rev. apply place_of_names.
  - destruct s as [|c s]; [injection E as <-; reflexivity|]. rewrite clean_rel in E by (try discriminate; exact H).
    apply clean_rel_form in E; [apply E|]. rewrite clean_list_rel by exact H. rewrite rev_involutive. apply nf_parts. apply cut_parts.
Qed.

(** What a path denotes. *)
Lemma step_go cwd stk p : Forall (fun q => q <> dot) stk -> fold_left go (rev (clean_step false stk p)) cwd = go (fold_left go (rev stk) cwd) p.
Proof.
  intros F. unfold clean_step. destruct (eqb p dot) eqn:D; [apply eqb_true in D; subst p; reflexivity|]. destruct (eqb p dots) eqn:DD.
  - apply eqb_true in DD. subst p. destruct stk as [|q r]; [reflexivity|]. destruct (eqb q dots) eqn:Q.
    + cbn [rev]. rewrite !fold_left_app. reflexivity.
    + cbn [rev]. rewrite fold_left_app. cbn [fold_left]. inversion F as [|? ? Nq _]; subst. unfold go at 3. unfold dots in Q. rewrite Q. rewrite (neq_eqb q [46%Z] Nq). reflexivity.
  - cbn [rev]. rewrite fold_left_app. reflexivity.
Qed.
Lemma step_nondot stk p : Forall (fun q => q <> dot) stk -> Forall (fun q => q <> dot) (clean_step false stk p).
Proof.
  intros F. unfold clean_step. destruct (eqb p dot) eqn:D; [exact F|]. apply eqb_false in D. destruct (eqb p dots).
  - destruct stk as [|q r]; [constructor; auto|]. destruct (eqb q dots); [constructor; auto|]. inversion F; assumption.
  - constructor; auto.
Qed.
Lemma steps_go cwd ps : forall stk, Forall (fun q => q <> dot) stk -> fold_left go (rev (fold_left (clean_step false) ps stk)) cwd = fold_left go ps (fold_left go (rev stk) cwd).
Proof. induction ps as [|p ps IH]; intros stk F; [reflexivity|]. cbn [fold_left]. rewrite IH by (apply step_nondot; exact F). rewrite step_go by exact F. reflexivity. Qed.
Lemma place_lemma cwd s t : clean Unix s = Some t -> ~ dot_first s -> place cwd t = place cwd s.
Proof.
  intros E D. destruct (slash_or s) as [[r ->]|H].
  - rewrite clean_abs in E. injection E as <-. rewrite place_abs. change (place cwd (abs_form (rev (place_of (47%Z :: r))) (ends_slash (47%Z :: r)))) with (place_of (abs_form (rev (place_of (47%Z :: r))) (ends_slash (47%Z :: r)))).
    rewrite place_form by (apply Forall_rev; apply place_of_names). apply rev_involutive.
  - assert (forall u, match u with 47%Z :: _ => False | _ => True end -> place cwd u = fold_left go (cut u) cwd) as W.
    { intros u Hu. unfold place. destruct u as [|c u]; [reflexivity|]. destruct c as [|q|q]; auto; repeat (destruct q as [q|q|]; auto); destruct Hu. }
    destruct s as [|c s]; [injection E as <-; reflexivity|]. rewrite clean_rel in E by (try discriminate; exact H). rewrite (W (c :: s) H).
    assert (fold_left go (clean_list Unix (c :: s)) cwd = fold_left go (cut (c :: s)) cwd) as <-.
    { rewrite clean_list_rel by exact H. unfold clean_parts. destruct (cut (c :: s)) as [|p ps] eqn:C; [reflexivity|].
      destruct (eqb p dot) eqn:Dp; cbn [andb negb]; [|apply (steps_go cwd (p :: ps) []); constructor].
      exfalso. apply D. apply eqb_true in Dp. subst p. unfold dot_first. rewrite C. destruct c as [|q|q]; eauto; repeat (destruct q as [q|q|]; eauto). }
    pose proof (nf_part _ (nf_parts _ (cut_parts (c :: s)))) as F. apply Forall_rev in F. rewrite <- clean_list_rel in F by exact H.
    destruct (clean_list Unix (c :: s)) as [|p cs]; unfold rel_form in E.
    + destruct (ends_slash (c :: s)); [discriminate|]. injection E as <-. reflexivity.
    + apply some_eq in E. subst t. destruct (join_rel (p :: cs) (if ends_slash (c :: s) then [47%Z] else []) F ltac:(discriminate)) as [H2 _]. rewrite (W _ H2). f_equal.
      destruct (ends_slash (c :: s)); [rewrite cut_snoc|rewrite app_nil_r]; apply cut_join; exact F.
Qed.
Lemma names_lemma st s : is_absolute st s = true -> Forall name (clean_list st s).
Proof.
  intros H. unfold clean_list. destruct s as [|c s]; [constructor|]. rewrite H, parts_go. apply Forall_rev. apply go_names; [apply cut_parts|constructor].
Qed.
Lemma root_lemma st s t : clean st s = Some t -> exists r, t = to_unix st (abs_root st s) ++ r.
Proof.
  intros E. unfold clean in E. destruct s as [|c s]; [injection E as <-; exists []; destruct st; reflexivity|].
  remember (to_unix st (abs_root st (c :: s))) as root eqn:Er. clear Er.
  assert (exists r, match root with [] => [] | _ => root ++ (if ends_slash root then [] else [slash]) end ++ str_join [slash] (clean_list st (c :: s)) = root ++ r) as [r0 Hr].
  { destruct root; [eexists; reflexivity|]. rewrite <- app_assoc. eexists. reflexivity. }
  rewrite Hr in E. destruct (ends_slash (to_unix st (c :: s))).
  - destruct (root ++ r0) eqn:Q; [discriminate|]. rewrite <- Q in E. injection E as <-. destruct (ends_slash (root ++ r0)); [eauto|]. rewrite <- app_assoc. eauto.
  - injection E as <-. eauto.
Qed.

(** ** Absolute paths *)
Lemma to_unix_plain st s : ~ In 92%Z s -> to_unix st s = s.
Proof.
  intros N. destruct st; try apply to_unix_id; unfold to_unix; induction s as [|c s IH]; try reflexivity; cbn [map];
    (rewrite IH by (intros H; apply N; right; exact H)); f_equal; unfold is_sep; destruct (Z.eqb_spec c 47) as [->|_]; try reflexivity; cbn [orb];
    (destruct (Z.eqb_spec c 92) as [->|_]; [destruct N; left; reflexivity|reflexivity]).
Qed.
Lemma root_combined s : ordinary s -> abs_root Combined s = [47%Z].
Proof.
  intros [(c & r & -> & N) B]. unfold abs_root, win_drive, win_network.
  assert (win_sep c = false) as W.
  { unfold win_sep. apply orb_false_iff. split; apply Z.eqb_neq; [exact N|]. intros ->. apply B. right. left. reflexivity. }
  cbn [letter Z.leb Z.compare Pos.compare Pos.compare_cont andb orb]. destruct r; [reflexivity|]. rewrite W. reflexivity.
Qed.
Lemma combined_unix s : ordinary s -> clean Combined s = clean Unix s.
Proof.
  intros O. pose proof (root_combined s O) as R. destruct O as [(c & r & -> & N) B]. unfold clean, clean_list, is_absolute. rewrite R, abs_unix, !(to_unix_plain _ _ B). reflexivity.
Qed.
Lemma ordinary_app s e : ordinary s -> ~ In 92%Z e -> ordinary (s ++ e).
Proof.
  intros [(c & r & -> & N) B] E. split; [exists c, (r ++ e); auto|]. intros I. apply in_app_or in I as [I|I]; auto.
Qed.
Lemma absolute_from_lemma base rel : ordinary base \/ base = [47%Z] ->
  exists t, absolute_from base rel Unix = Some t /\ is_absolute Unix t = true /\ place_of t = fold_left go (cut rel) (place_of base).
Proof.
  intros H. unfold absolute_from. assert (clean Combined base = clean Unix base) as ->.
  { destruct H as [H| ->]; [apply combined_unix; exact H|reflexivity]. }
  assert (exists r, base = 47%Z :: r) as [r ->] by (destruct H as [[(c & r & -> & _) _]| ->]; eauto).
  rewrite clean_abs. set (cs := rev (place_of (47%Z :: r))). assert (Forall name cs) as F by (apply Forall_rev; apply place_of_names).
  unfold abs_form at 1. cbn [app]. rewrite clean_abs. eexists. split; [reflexivity|]. split; [unfold abs_form; rewrite is_abs_unix; reflexivity|].
  rewrite place_form by (apply Forall_rev; apply place_of_names). rewrite rev_involutive.
  change slash with 47%Z. set (e := match cs with [] => [] | _ => if ends_slash (47%Z :: r) then [47%Z] else [] end).
  unfold place_of at 1, place. rewrite cut_cons. change ((str_join [47%Z] cs ++ e) ++ 47%Z :: rel) with ((str_join [47%Z] cs ++ e) ++ 47%Z :: rel).
  rewrite cut_app, fold_left_app. f_equal. rewrite <- (cut_cons (str_join [47%Z] cs ++ e)).
  change (fold_left go (cut (47%Z :: str_join [47%Z] cs ++ e)) []) with (place_of (abs_form cs (ends_slash (47%Z :: r)))). rewrite place_form by exact F.
  unfold cs. apply rev_involutive.
Qed.

(** ** Comparison *)
Lemma absolute_place cwd p : ordinary cwd -> ~ In 92%Z p ->
  exists r, absolute cwd p Unix = Some (47%Z :: r) /\ place_of (47%Z :: r) = place (place_of cwd) p.
Proof.
  intros O B. unfold absolute. destruct (slash_or p) as [[r ->]|H].
  - rewrite is_abs_unix, clean_abs. eexists. split; [reflexivity|]. fold (abs_form (rev (place_of (47%Z :: r))) (ends_slash (47%Z :: r))).
    rewrite place_form by (apply Forall_rev; apply place_of_names). apply rev_involutive.
  - rewrite is_abs_unix. assert (match p with 47%Z :: _ => true | _ => false end = false) as ->.
    { destruct p as [|c p]; [reflexivity|]. destruct c as [|q|q]; auto; repeat (destruct q as [q|q|]; auto); destruct H. }
    assert (ordinary (cwd ++ [slash] ++ p)) as O2.
    { apply ordinary_app; [exact O|]. intros [X|X]; [discriminate|auto]. }
    rewrite (combined_unix _ O2). assert (exists r, cwd = 47%Z :: r) as [r ->] by (destruct O as [(c & r & -> & _) _]; eauto).
    cbn [app]. rewrite clean_abs. eexists. split; [reflexivity|].
    match goal with |- place_of ?X = _ => change X with (abs_form (rev (place_of (47%Z :: r ++ slash :: p))) (ends_slash (47%Z :: r ++ slash :: p))) end.
    rewrite place_form by (apply Forall_rev; apply place_of_names). rewrite rev_involutive. unfold place_of, place. rewrite !cut_cons. change slash with 47%Z. rewrite cut_app, fold_left_app.
    assert (match p with 47%Z :: _ => [] | _ => fold_left go (cut r) [] end = fold_left go (cut r) []) as ->; [|reflexivity].
    destruct p as [|c p]; [reflexivity|]. destruct c as [|q|q]; auto; repeat (destruct q as [q|q|]; auto); destruct H.
Qed.
Lemma is_equal_lemma cwd p q : ordinary cwd -> ~ In 92%Z p -> ~ In 92%Z q ->
  exists b, is_equal cwd p q = Some b /\ (b = true <-> place (place_of cwd) p = place (place_of cwd) q).
Proof.
  intros O Bp Bq. destruct (absolute_place cwd p O Bp) as (a & Ea & Pa). destruct (absolute_place cwd q O Bq) as (b & Eb & Pb).
  unfold is_equal. rewrite Ea, Eb. eexists. split; [reflexivity|]. rewrite !abs_unix, eqb_refl. cbn [andb]. rewrite (clean_list_abs a []), (clean_list_abs b []).
  fold (place_of (47%Z :: a)). fold (place_of (47%Z :: b)). rewrite eqb_eq, Pa, Pb. split; [|congruence]. intros E. apply (f_equal (@rev text)) in E. rewrite !rev_involutive in E. exact E.
Qed.

(** ** Relative paths *)
Lemma first_diff_app com : forall x y a b, x <> y -> first_diff (com ++ y :: a) (com ++ x :: b) = Some (length com).
Proof.
  induction com as [|c com IH]; intros x y a b N; cbn; [rewrite (neq_eqb y x) by congruence; reflexivity|]. rewrite eqb_refl, (IH x y a b N). reflexivity.
Qed.
Lemma cut_ups n s : cut (ups n ++ s) = repeat dots n ++ cut s.
Proof.
  induction n as [|n IH]; [reflexivity|]. cbn [ups repeat app]. change slash with 47%Z.
  replace ((dots ++ 47%Z :: ups n) ++ s) with (dots ++ 47%Z :: (ups n ++ s)) by (rewrite <- app_assoc; reflexivity).
  rewrite cut_app, IH, (cut_one dots part_dots). reflexivity.
Qed.
Lemma go_ups n : forall stk, fold_left go (repeat dots n) stk = skipn n stk.
Proof. induction n as [|n IH]; intros stk; [reflexivity|]. cbn [repeat fold_left]. rewrite IH. destruct stk; [destruct n; reflexivity|reflexivity]. Qed.
Lemma relative_lemma base path com x y b p : is_absolute Unix base = true -> is_absolute Unix path = true ->
  rev (place_of base) = com ++ x :: b -> rev (place_of path) = com ++ y :: p -> x <> y -> com <> [] ->
  place (place_of base) (relative base path Unix) = place_of path.
Proof.
  intros Hb Hp Eb Ep N C. assert (exists r, base = 47%Z :: r) as [rb ->].
  { destruct (slash_or base) as [X|X]; [exact X|]. rewrite is_abs_unix in Hb. destruct base as [|c base]; [discriminate|]. destruct c as [|q|q]; try discriminate; repeat (destruct q as [q|q|]; try discriminate); destruct X. }
  assert (exists r, path = 47%Z :: r) as [rp ->].
  { destruct (slash_or path) as [X|X]; [exact X|]. rewrite is_abs_unix in Hp. destruct path as [|c path]; [discriminate|]. destruct c as [|q|q]; try discriminate; repeat (destruct q as [q|q|]; try discriminate); destruct X. }
  assert (relative (47%Z :: rb) (47%Z :: rp) Unix = ups (S (length b)) ++ str_join [slash] (y :: p)) as ->.
  { unfold relative. rewrite (clean_list_abs rb []), (clean_list_abs rp []). fold (place_of (47%Z :: rb)). fold (place_of (47%Z :: rp)).
    rewrite Eb, Ep, first_diff_app by exact N. rewrite skipn_app, skipn_all, Nat.sub_diag. cbn [skipn app].
    replace (length (com ++ x :: b) - length com) with (S (length b)) by (rewrite app_length; cbn; lia). destruct com; [congruence|reflexivity]. }
  assert (Forall name (y :: p) /\ Forall name com) as [Fy Fc].
  { pose proof (Forall_rev (place_of_names rp)) as F. rewrite Ep in F. apply Forall_app in F. tauto. }
  unfold place at 1. assert (forall A (u v : A) s, match ups (S (length b)) ++ s with 47%Z :: _ => u | _ => v end = v) as W by reflexivity.
  rewrite W, cut_ups, cut_join by (apply names_parts; exact Fy). rewrite fold_left_app, go_ups, go_all by exact Fy.
  rewrite <- (rev_involutive (place_of (47%Z :: rp))), Ep. rewrite <- (rev_involutive (place_of (47%Z :: rb))), Eb.
  assert (skipn (S (length b)) (rev (com ++ x :: b)) = rev com) as ->.
  { change (com ++ x :: b) with (com ++ [x] ++ b). rewrite app_assoc, rev_app_distr, skipn_app, rev_length. replace (S (length b) - length b) with 1 by lia.
    rewrite skipn_all2 by (rewrite rev_length; lia). rewrite rev_app_distr. reflexivity. }
  rewrite rev_app_distr. reflexivity.
Qed.
Lemma first_diff_some p : forall b n, first_diff p b = Some n -> exists com x y p' b', p = com ++ y :: p' /\ b = com ++ x :: b' /\ x <> y /\ length com = n.
Proof.
  induction p as [|y p IH]; intros b n E; [discriminate E|]. destruct b as [|x b]; [discriminate E|]. cbn [first_diff] in E. destruct (eqb y x) eqn:Q.
  - apply eqb_true in Q. subst y. destruct (first_diff p b) as [k|] eqn:D; [|discriminate E]. cbn [option_map] in E. injection E as <-.
    destruct (IH _ _ D) as (com & x' & y' & p' & b' & -> & -> & N & L). exists (x :: com), x', y', p', b'. cbn. rewrite L. auto.
  - apply eqb_false in Q. injection E as <-. exists [], x, y, p, b. cbn. repeat split; auto.
Qed.
Lemma absolute_slash s : is_absolute Unix s = true -> exists r, s = 47%Z :: r.
Proof.
  intros H. destruct (slash_or s) as [X|X]; [exact X|]. rewrite is_abs_unix in H. destruct s as [|c s]; [discriminate|]. destruct c as [|q|q]; try discriminate; repeat (destruct q as [q|q|]; try discriminate); destruct X.
Qed.
Lemma join_place cs cwd : Forall name cs -> place cwd (str_join [slash] cs) = rev cs ++ cwd.
Proof.
  intros F. change slash with 47%Z. unfold place. rewrite cut_join by (apply names_parts; exact F). rewrite go_all by exact F. f_equal.
  destruct F as [|c cs [N [M _]] F]; [reflexivity|]. destruct c as [|z c]; [congruence|].
  assert (Z : z <> 47%Z) by (intros ->; apply M; left; reflexivity).
  assert (G : exists t, str_join [47%Z] ((z :: c) :: cs) = z :: t) by (destruct cs; cbn; eauto). destruct G as [t ->].
  destruct z as [|q|q]; auto; repeat (destruct q as [q|q|]; auto); congruence.
Qed.
Lemma relative_exact_lemma base path : is_absolute Unix base = true -> is_absolute Unix path = true ->
  (place (place_of base) (relative base path Unix) = place_of path <->
   place_of base = [] \/ exists com x y b p, com <> [] /\ x <> y /\ rev (place_of base) = com ++ x :: b /\ rev (place_of path) = com ++ y :: p).
Proof.
  intros Hb Hp.
  assert (OTHER : (match first_diff (rev (place_of path)) (rev (place_of base)) with Some n => n | None => 0 end = 0) ->
    place (place_of base) (relative base path Unix) = place_of path ++ place_of base).
  { intros E. destruct (absolute_slash _ Hb) as [rb ->], (absolute_slash _ Hp) as [rp ->].
    assert (R : relative (47%Z :: rb) (47%Z :: rp) Unix = str_join [slash] (rev (place_of (47%Z :: rp)))).
    { unfold relative. rewrite (clean_list_abs rb []), (clean_list_abs rp []). fold (place_of (47%Z :: rb)). fold (place_of (47%Z :: rp)). rewrite E. reflexivity. }
    rewrite R, join_place by (apply Forall_rev, place_of_names). rewrite rev_involutive. reflexivity. }
  split.
  - intros E. destruct (first_diff (rev (place_of path)) (rev (place_of base))) as [n|] eqn:D; [destruct n as [|n]|].
    + left. rewrite (OTHER eq_refl) in E. rewrite <- (app_nil_r (place_of path)) in E at 2. exact (app_inv_head _ _ _ E).
    + right. destruct (first_diff_some _ _ _ D) as (com & x & y & p & b & P & B & N & L). exists com, x, y, b, p. repeat split; auto. intros ->. discriminate L.
    + left. rewrite (OTHER eq_refl) in E. rewrite <- (app_nil_r (place_of path)) in E at 2. exact (app_inv_head _ _ _ E).
  - intros [B|(com & x & y & b & p & C & N & EB & EP)]; [|exact (relative_lemma base path com x y b p Hb Hp EB EP N C)].
    rewrite OTHER; rewrite B; [apply app_nil_r|]. cbn [rev]. destruct (rev (place_of path)); reflexivity.
Qed.

(** ** File names *)
Lemma parts_name ab ps n : name n -> exists l, clean_parts ab (ps ++ [n]) = n :: l.
Proof.
  intros N. destruct (name_eqb n N) as [A B]. assert (forall stk, clean_step ab stk n = n :: stk) as W by (intros stk; unfold clean_step; rewrite A, B; reflexivity).
  unfold clean_parts. destruct ps as [|p ps]; cbn [app]; [rewrite A; cbn [andb fold_left]; rewrite W; eauto|].
  destruct (eqb p dot && negb ab)%bool; [|change (p :: ps ++ [n]) with ((p :: ps) ++ [n])]; rewrite fold_left_app; cbn [fold_left]; rewrite W; eauto.
Qed.
Lemma file_name_lemma d n : name n -> file_name Unix (d ++ [47%Z] ++ n) = n.
Proof.
  intros N. unfold file_name. assert (exists c r, d ++ [47%Z] ++ n = c :: r) as (c & r & E) by (destruct d; cbn; eauto). rewrite E, <- E.
  assert (is_sep Unix (last (d ++ [47%Z] ++ n) 0%Z) = false) as ->.
  { destruct N as (Nn & I0 & _). destruct n as [|x n _] using rev_ind; [congruence|]. rewrite !app_assoc, last_last. unfold is_sep. rewrite orb_false_r. apply Z.eqb_neq.
    intros ->. apply I0. apply in_or_app. right. left. reflexivity. }
  assert (exists ab, clean_list Unix (d ++ [47%Z] ++ n) = rev (clean_parts ab (cut d ++ [n]))) as [ab ->].
  { assert (cut (d ++ [47%Z] ++ n) = cut d ++ [n]) as <- by (cbn [app]; rewrite cut_app, (cut_one n (name_part n N)); reflexivity).
    destruct (slash_or (d ++ [47%Z] ++ n)) as [[r' E']|H]; [|exists false; apply clean_list_rel; exact H].
    exists true. rewrite E'. unfold clean_list. rewrite is_abs_unix, abs_unix, to_unix_id, cut_cons. reflexivity. }
  destruct (parts_name ab (cut d) n N) as [l ->]. cbn [rev]. apply last_last.
Qed.

(** ** Creating directories *)
Lemma snoc_match {A} (l : list text) p (u v : A) : match l ++ [p] with [] => u | _ => v end = v.
Proof. destruct l; reflexivity. Qed.
Lemma mkdir_ok fs p : forall l done, (forall q, q <> [] -> prefix q l -> aget (done ++ q) fs = Some true) ->
  mkdir_at fs done (l ++ [p]) = match aget (done ++ l ++ [p]) fs with None => (aset (done ++ l ++ [p]) true fs, ENone) | Some _ => (fs, EExist) end.
Proof.
  induction l as [|a l IH]; intros done H; cbn [app mkdir_at].
  - destruct (aget (done ++ [p]) fs) as [[]|]; reflexivity.
  - rewrite (H [a]); [|discriminate|exists l; reflexivity]. rewrite snoc_match.
    rewrite IH; [rewrite <- !app_assoc; reflexivity|]. intros q Nq [c ->]. rewrite <- app_assoc. apply (H ([a] ++ q)); [discriminate|]. exists c. reflexivity.
Qed.
Lemma mkdir_missing fs p : forall l done, l <> [] -> (forall q, q <> [] -> prefix q l -> aget (done ++ q) fs <> Some false) -> aget (done ++ l) fs = None ->
  mkdir_at fs done (l ++ [p]) = (fs, ENoEnt).
Proof.
  induction l as [|a l IH]; intros done N H M; [congruence|]. cbn [app mkdir_at]. rewrite !snoc_match.
  pose proof (H [a] ltac:(discriminate) (ex_intro _ l eq_refl)) as Ha. destruct (aget (done ++ [a]) fs) as [[]|] eqn:Ga; [|congruence|reflexivity].
  destruct l as [|b l]; [rewrite M in Ga; discriminate|]. apply IH; [discriminate| |rewrite <- app_assoc; exact M].
  intros q Nq [c Hc]. rewrite <- app_assoc. apply (H ([a] ++ q)); [discriminate|]. exists c. rewrite Hc. reflexivity.
Qed.
Lemma mkdir_file fs : forall q done rest, q <> [] -> (forall q', q' <> [] -> q' <> q -> prefix q' q -> aget (done ++ q') fs = Some true) -> aget (done ++ q) fs = Some false ->
  mkdir_at fs done (q ++ rest) = (fs, match rest with [] => EExist | _ => ENotDir end).
Proof.
  induction q as [|a q IH]; intros done rest N H F; [congruence|]. cbn [app mkdir_at]. destruct q as [|b q].
  - rewrite F. cbn [app]. destruct rest; reflexivity.
  - rewrite (H [a]); [|discriminate|discriminate|exists (b :: q); reflexivity]. change ((b :: q) ++ rest) with (b :: q ++ rest) at 1. cbv iota.
    change (b :: q ++ rest) with ((b :: q) ++ rest). apply IH; [discriminate| |rewrite <- app_assoc; exact F].
    intros q' Nq Nq' [c Hc]. rewrite <- app_assoc. apply (H ([a] ++ q')); [discriminate| |exists c; rewrite Hc; reflexivity]. intros X. injection X as X. contradiction.
Qed.
Lemma stat_spec fs : forall ps done, stat_dir fs done ps = true <-> (forall q, q <> [] -> prefix q ps -> aget (done ++ q) fs = Some true).
Proof.
  induction ps as [|p ps IH]; intros done; cbn [stat_dir].
  - split; [intros _ q N [c E]; destruct q; [congruence|discriminate]|reflexivity].
  - split.
    + destruct (aget (done ++ [p]) fs) as [[]|] eqn:G; try discriminate. intros S0 q N [c E]. destruct q as [|x q]; [congruence|]. injection E as <- E. destruct q as [|y q]; [exact G|].
      rewrite <- (app_assoc done [p] (y :: q)) || idtac. change (p :: y :: q) with ([p] ++ (y :: q)). rewrite app_assoc. apply (proj1 (IH (done ++ [p])) S0); [discriminate|]. exists c. exact E.
    + intros H. rewrite (H [p]); [|discriminate|exists ps; reflexivity]. apply IH. intros q N [c ->]. rewrite <- app_assoc. apply (H ([p] ++ q)); [discriminate|]. exists c. reflexivity.
Qed.
Lemma sound_all fs : sound_fs fs -> forall l, aget l fs = Some true -> forall q, q <> [] -> prefix q l -> aget q fs = Some true.
Proof.
  intros S0. induction l as [|x l IH] using rev_ind; intros G q N [c E].
  - destruct q; [congruence|discriminate].
  - destruct c as [|y c _] using rev_ind; [rewrite app_nil_r in E; subst q; exact G|]. rewrite app_assoc in E. apply app_inj_tail in E as [E ->].
    assert (aget (l ++ [y]) fs <> None) as Nn by congruence. destruct (S0 l y Nn) as [Z0|Z0]; [subst l; destruct q; [congruence|discriminate]|].
    apply IH; [exact Z0|exact N|]. exists c. exact E.
Qed.
Lemma prefix_snoc (q l : list text) p : prefix q (l ++ [p]) -> prefix q l \/ q = l ++ [p].
Proof.
  intros [c E]. destruct c as [|x c _] using rev_ind; [right; rewrite app_nil_r in E; congruence|]. left. rewrite app_assoc in E. apply app_inj_tail in E as [E _]. exists c. exact E.
Qed.
Lemma cut_form ps : Forall name ps -> cut (abs_form ps false) = ps.
Proof.
  intros F. unfold abs_form. rewrite cut_cons. destruct ps as [|p ps]; [reflexivity|]. rewrite app_nil_r. apply cut_join. apply names_parts. exact F.
Qed.
Lemma drop_name_spec a p : ~ In 47%Z p -> drop_name (rev (a ++ 47%Z :: p)) = Some a.
Proof.
  intros I0. rewrite rev_app_distr. cbn [rev]. rewrite <- app_assoc. assert (~ In 47%Z (rev p)) as J by (rewrite <- in_rev; exact I0).
  induction (rev p) as [|c r IH]; cbn; [rewrite rev_involutive; reflexivity|]. destruct (Z.eqb_spec c 47) as [->|_]; [destruct J; left; reflexivity|]. apply IH. intros X. apply J. right. exact X.
Qed.
Lemma form_snoc l p : l <> [] -> abs_form (l ++ [p]) false = abs_form l false ++ 47%Z :: p.
Proof.
  intros N. unfold abs_form. rewrite join_snoc by exact N. destruct l as [|a l]; [congruence|]. cbn [app]. rewrite !app_nil_r. reflexivity.
Qed.
Lemma mk_path_eq f fs s ps tail : Forall name ps -> ps <> [] -> clean Unix s = Some (abs_form ps tail) ->
  mk_path (S f) Unix fs s =
  let t := abs_form ps false in
  match mk_dir fs t with
  | (fs', ENone) => Some (fs', true)
  | (fs', ENoEnt) =>
      match drop_name (rev t) with
      | None => Some (fs', false)
      | Some d =>
          match mk_path f Unix fs' d with
          | Some (fs2, true) => let (fs3, e) := mk_dir fs2 t in Some (fs3, match e with ENone => true | _ => false end)
          | o => o
          end
      end
  | (fs', EExist) => Some (fs', is_dir fs' t)
  | (fs', ENotDir) => Some (fs', false)
  end.
Proof.
  intros F N E. cbn [mk_path]. rewrite E. assert ((if ends_slash (to_unix Unix (abs_form ps tail)) then removelast (to_unix Unix (abs_form ps tail)) else to_unix Unix (abs_form ps tail)) = abs_form ps false) as W.
  { rewrite to_unix_id, ends_form by exact F. destruct ps as [|p ps]; [congruence|]. unfold abs_form. destruct tail; [|reflexivity]. rewrite app_nil_r.
    change (47%Z :: str_join [47%Z] (p :: ps) ++ [47%Z]) with ((47%Z :: str_join [47%Z] (p :: ps)) ++ [47%Z]). apply removelast_last. }
  unfold abs_form at 1. cbv beta iota zeta. fold (abs_form ps tail). rewrite W. reflexivity.
Qed.
Lemma mk_dir_form fs ps : Forall name ps -> mk_dir fs (abs_form ps false) = mkdir_at fs [] ps.
Proof. intros F. unfold mk_dir. rewrite cut_form by exact F. reflexivity. Qed.
Lemma is_dir_form fs ps : Forall name ps -> is_dir fs (abs_form ps false) = stat_dir fs [] ps.
Proof. intros F. unfold is_dir. rewrite cut_form by exact F. reflexivity. Qed.
Lemma mk_path_lemma : forall ps fs s tail fuel, ps <> [] -> length ps <= fuel -> Forall name ps -> sound_fs fs -> clean Unix s = Some (abs_form ps tail) ->
  (forall q, q <> [] -> prefix q ps -> aget q fs <> Some false) ->
  exists fs', mk_path fuel Unix fs s = Some (fs', true) /\ (forall q, q <> [] -> prefix q ps -> aget q fs' = Some true) /\ (forall q, q = [] \/ ~ prefix q ps -> aget q fs' = aget q fs).
Proof.
  induction ps as [|p l IH] using rev_ind; intros fs s tail fuel N L F S0 E NF; [congruence|]. rewrite app_length in L. cbn in L. destruct fuel as [|f]; [lia|].
  rewrite (mk_path_eq f fs s (l ++ [p]) tail F N E). cbv zeta. rewrite mk_dir_form by exact F.
  assert (Fin : forall g, (forall q, q <> [] -> prefix q l -> aget q g = Some true) -> aget (l ++ [p]) g = None ->
    (forall q, q <> [] -> prefix q (l ++ [p]) -> aget q (aset (l ++ [p]) true g) = Some true) /\ (forall q, q = [] \/ ~ prefix q (l ++ [p]) -> aget q (aset (l ++ [p]) true g) = aget q g)).
  { intros g Hg _. split.
    - intros q Nq P. rewrite aget_aset. destruct (eqb q (l ++ [p])) eqn:Q; [reflexivity|]. apply prefix_snoc in P as [P|P]; [auto|]. subst q. rewrite eqb_refl in Q. discriminate.
    - intros q Hq. rewrite aget_aset_other; [reflexivity|]. intros X. destruct Hq as [->|Hq]; [destruct l; discriminate|]. apply Hq. rewrite X. exists []. rewrite app_nil_r. reflexivity. }
  assert (l = [] \/ aget l fs = Some true \/ (l <> [] /\ aget l fs = None)) as Cs.
  { destruct l as [|a l]; [auto|]. right. destruct (aget (a :: l) fs) as [[]|] eqn:G; auto; [|right; split; [discriminate|reflexivity]].
    destruct (NF (a :: l)); [discriminate|exists [p]; reflexivity|exact G]. }
  assert (Ok : (forall q, q <> [] -> prefix q l -> aget q fs = Some true) -> exists fs',
    match mkdir_at fs [] (l ++ [p]) with
    | (fs', ENone) => Some (fs', true)
    | (fs', ENoEnt) => match drop_name (rev (abs_form (l ++ [p]) false)) with
                       | None => Some (fs', false)
                       | Some d => match mk_path f Unix fs' d with
                                   | Some (fs2, true) => let (fs3, e) := mk_dir fs2 (abs_form (l ++ [p]) false) in Some (fs3, match e with ENone => true | _ => false end)
                                   | o => o
                                   end
                       end
    | (fs', EExist) => Some (fs', is_dir fs' (abs_form (l ++ [p]) false))
    | (fs', ENotDir) => Some (fs', false)
    end = Some (fs', true) /\ (forall q, q <> [] -> prefix q (l ++ [p]) -> aget q fs' = Some true) /\ (forall q, q = [] \/ ~ prefix q (l ++ [p]) -> aget q fs' = aget q fs)).
  { intros Hl. rewrite (mkdir_ok fs p l []) by exact Hl. cbn [app]. destruct (aget (l ++ [p]) fs) as [b|] eqn:G.
    - assert (forall q, q <> [] -> prefix q (l ++ [p]) -> aget q fs = Some true) as A.
      { intros q Nq P. apply prefix_snoc in P as [P| ->]; [auto|]. rewrite G. destruct b; [reflexivity|]. destruct (NF (l ++ [p]) Nq); [exists []; rewrite app_nil_r; reflexivity|exact G]. }
      exists fs. rewrite is_dir_form by exact F. rewrite (proj2 (stat_spec fs (l ++ [p]) []) A). auto.
    - exists (aset (l ++ [p]) true fs). destruct (Fin fs Hl G). auto. }
  destruct Cs as [->|[G|[Nl G]]].
  - apply Ok. intros q Nq [c X]. destruct q; [congruence|discriminate].
  - apply Ok. apply sound_all; assumption.
  - clear Ok. assert (Forall name l /\ name p) as [Fl Np] by (apply Forall_app in F as [F1 F2]; inversion F2; auto).
    rewrite (mkdir_missing fs p l []); [|exact Nl| |exact G].
    2: { intros q Nq [c ->]. apply NF; [exact Nq|]. exists (c ++ [p]). rewrite <- app_assoc. reflexivity. }
    rewrite form_snoc by exact Nl. rewrite drop_name_spec by (apply Np).
    destruct (IH fs (abs_form l false) false f Nl ltac:(lia) Fl S0 (clean_form l false Fl)) as (fs2 & -> & A & B).
    { intros q Nq [c ->]. apply NF; [exact Nq|]. exists (c ++ [p]). rewrite <- app_assoc. reflexivity. }
    rewrite <- form_snoc by exact Nl. rewrite mk_dir_form by exact F. rewrite (mkdir_ok fs2 p l []) by exact A. cbn [app].
    assert (~ prefix (l ++ [p]) l) as Np2.
    { intros [c X]. apply (f_equal (@length text)) in X. rewrite !app_length in X. cbn in X. lia. }
    assert (aget (l ++ [p]) fs = None) as G2.
    { destruct (aget (l ++ [p]) fs) eqn:G2; [|reflexivity]. assert (aget (l ++ [p]) fs <> None) as X by congruence. destruct (S0 l p X); congruence. }
    rewrite (B (l ++ [p])) by (right; exact Np2). rewrite G2. eexists. split; [reflexivity|]. destruct (Fin fs2 A) as [C D]; [rewrite B by (right; exact Np2); exact G2|].
    split; [exact C|]. intros q Hq. rewrite D by exact Hq. apply B. destruct Hq as [Hq|Hq]; [auto|]. right. intros [c X]. apply Hq. exists (c ++ [p]). rewrite X, <- app_assoc. reflexivity.
Qed.
Lemma mk_path_file ps fs s tail fuel q : 0 < fuel -> ps <> [] -> Forall name ps -> sound_fs fs -> clean Unix s = Some (abs_form ps tail) ->
  q <> [] -> prefix q ps -> aget q fs = Some false -> mk_path fuel Unix fs s = Some (fs, false).
Proof.
  intros L N F S0 E Nq [c P] G. destruct fuel as [|f]; [lia|]. rewrite (mk_path_eq f fs s ps tail F N E). cbv zeta. rewrite mk_dir_form by exact F. rewrite P at 1.
  assert (forall q', q' <> [] -> q' <> q -> prefix q' q -> aget ([] ++ q') fs = Some true) as A.
  { intros q' N1 N2 [e X]. cbn [app]. destruct q as [|y q _] using rev_ind; [congruence|]. destruct e as [|z e _] using rev_ind; [rewrite app_nil_r in X; congruence|].
    rewrite app_assoc in X. apply app_inj_tail in X as [X _]. assert (aget (q ++ [y]) fs <> None) as Y by congruence. destruct (S0 q y Y) as [Z0|Z0].
    - subst q. destruct q'; [congruence|discriminate].
    - apply (sound_all fs S0 q Z0 q' N1). exists e. exact X. }
  rewrite (mkdir_file fs q [] c Nq A G). destruct c as [|x c]; [|reflexivity]. rewrite is_dir_form by exact F. f_equal. f_equal.
  destruct (stat_dir fs [] ps) eqn:St; [|reflexivity]. pose proof (proj1 (stat_spec fs ps []) St q Nq (ex_intro _ [] P)) as X. cbn in X. congruence.
Qed.
Lemma split_length d : forall fuel s, length (split_loop fuel d s) <= fuel.
Proof.
  induction fuel as [|f IH]; intros s; [cbn; lia|]. destruct s as [|c s]; [cbn; lia|]. cbn [split_loop]. destruct (run_of d (skip_delim d (c :: s))) as [p r].
  destruct p; [specialize (IH r); lia|]. cbn. specialize (IH r). lia.
Qed.
Lemma go_length ps : forall stk, length (fold_left go ps stk) <= length ps + length stk.
Proof.
  induction ps as [|p ps IH]; intros stk; [cbn; lia|]. cbn [fold_left]. specialize (IH (go stk p)). assert (length (go stk p) <= S (length stk)).
  { unfold go. destruct (eqb p [46%Z]); [lia|]. destruct (eqb p [46%Z; 46%Z]); [destruct stk; cbn; lia|cbn; lia]. }
  cbn. lia.
Qed.
Lemma make_path_lemma fs r : sound_fs fs -> place_of (47%Z :: r) <> [] ->
  let ps := rev (place_of (47%Z :: r)) in
  ((forall q, q <> [] -> prefix q ps -> aget q fs <> Some false) ->
     exists fs', make_path Unix fs (47%Z :: r) = Some (fs', true) /\ (forall q, q <> [] -> prefix q ps -> aget q fs' = Some true) /\ (forall q, q = [] \/ ~ prefix q ps -> aget q fs' = aget q fs)) /\
  (forall q, q <> [] -> prefix q ps -> aget q fs = Some false -> make_path Unix fs (47%Z :: r) = Some (fs, false)).
Proof.
  intros S0 N ps. assert (Forall name ps) as F by (apply Forall_rev; apply place_of_names).
  assert (ps <> []) as N2 by (intros X; apply N; rewrite <- (rev_involutive (place_of _)); fold ps; rewrite X; reflexivity).
  assert (length ps <= S (length (47%Z :: r))) as L.
  { unfold ps. rewrite rev_length. unfold place_of, place. etransitivity; [apply go_length|]. unfold str_split. pose proof (split_length [47%Z] (length (47%Z :: r)) (47%Z :: r)). cbn [length]  in *. lia. }
  split.
  - intros NF. unfold make_path. apply (mk_path_lemma ps fs (47%Z :: r) (ends_slash (47%Z :: r))); auto. apply clean_abs.
  - intros q Nq P G. unfold make_path. apply (mk_path_file ps fs (47%Z :: r) (ends_slash (47%Z :: r)) _ q); auto; [lia|]. apply clean_abs.
Qed.

(** ** What does not hold *)
Lemma undefined_lemma n : name n -> clean Unix (n ++ str "/../") = None.
Proof.
  intros N. change (str "/../") with (47%Z :: dots ++ [47%Z]). assert (match n ++ 47%Z :: dots ++ [47%Z] with 47%Z :: _ => False | _ => True end) as H.
  { destruct (join_rel [n] (47%Z :: dots ++ [47%Z])) as [H _]; [constructor; [apply name_part; exact N|constructor]|discriminate|exact H]. }
  assert (n ++ 47%Z :: dots ++ [47%Z] <> []) as M by (destruct n; discriminate).
  rewrite clean_rel, clean_list_rel by assumption. rewrite cut_app, cut_snoc, (cut_one n (name_part n N)), (cut_one dots part_dots).
  destruct (name_eqb n N) as [A B]. cbn [app]. unfold clean_parts. rewrite A. cbn [andb fold_left]. unfold clean_step. rewrite A, B.
  change (eqb dots dot) with false. change (eqb dots dots) with true. cbn [rev app rel_form].
  replace (n ++ 47%Z :: dots ++ [47%Z]) with ((n ++ 47%Z :: dots) ++ [47%Z]) by (rewrite <- app_assoc; reflexivity). rewrite ends_snoc, ?B. reflexivity.
Qed.
Lemma place_top a : name a -> place_of (47%Z :: a) = [a].
Proof. intros N. unfold place_of, place. rewrite cut_cons, (cut_one a (name_part a N)), go_all by (constructor; [exact N|constructor]). reflexivity. Qed.
Lemma place_sub a b : name a -> name b -> place_of (47%Z :: a ++ 47%Z :: b) = [b; a].
Proof.
  intros A B. unfold place_of, place. rewrite cut_cons, cut_app, (cut_one a (name_part a A)), (cut_one b (name_part b B)). rewrite go_all by (constructor; [assumption|constructor; [assumption|constructor]]). reflexivity.
Qed.
Lemma place_name cwd a : name a -> place cwd a = a :: cwd.
Proof.
  intros N. pose proof (cut_one a (name_part a N)) as C. unfold place. rewrite C. rewrite go_all by (constructor; [exact N|constructor]). cbn [rev app]. f_equal.
  destruct N as (N & I0 & _). destruct a as [|c a]; [congruence|]. destruct c as [|q|q]; auto; repeat (destruct q as [q|q|]; auto). destruct I0. left. reflexivity.
Qed.
Lemma relative_refuted_lemma a b : name a -> name b -> a <> b ->
  let here s t := place (place_of s) (relative s t Unix) in
  let top n := 47%Z :: n in let sub n m := 47%Z :: n ++ 47%Z :: m in
  here (sub a b) (top a) <> place_of (top a) /\ here (top a) (sub a b) <> place_of (sub a b) /\ here (top a) (top b) <> place_of (top b).
Proof.
  intros A B N here top sub. unfold here, top, sub, relative. rewrite (clean_list_abs a []), (clean_list_abs (a ++ 47%Z :: b) []), (clean_list_abs b []).
  fold (place_of (47%Z :: a)). fold (place_of (47%Z :: b)). fold (place_of (47%Z :: a ++ 47%Z :: b)).
  rewrite place_sub, !place_top by assumption. cbn [rev app first_diff]. rewrite !eqb_refl, (neq_eqb b a) by congruence. cbn [option_map skipn str_join app].
  rewrite !(place_name _ a), !(place_name _ b) by assumption. repeat split; try discriminate.
  assert (match a ++ 47%Z :: b with 47%Z :: _ => False | _ => True end) as H.
  { destruct (join_rel [a] (47%Z :: b)) as [H _]; [constructor; [apply name_part; exact A|constructor]|discriminate|exact H]. }
  change slash with 47%Z. assert (place [a] (a ++ 47%Z :: b) = [b; a; a]) as ->; [|discriminate].
  unfold place. rewrite cut_app, (cut_one a (name_part a A)), (cut_one b (name_part b B)), go_all by (constructor; [assumption|constructor; [assumption|constructor]]). cbn [rev app]. do 2 f_equal.
  destruct (a ++ 47%Z :: b) as [|c u]; [reflexivity|]. destruct c as [|q|q]; auto; repeat (destruct q as [q|q|]; auto). destruct H.
Qed.

Lemma up_to_dot_app b e : ~ In 46%Z b -> up_to_dot b = b /\ up_to_dot (b ++ [46%Z] ++ e) = b.
Proof.
  induction b as [|c b IH]; intros N; [split; reflexivity|]. destruct IH as [I1 I2]; [intro H; apply N; right; exact H|].
  assert ((c =? 46)%Z = false) as E by (apply Z.eqb_neq; intros ->; apply N; left; reflexivity).
  change ((c :: b) ++ [46%Z] ++ e) with (c :: (b ++ [46%Z] ++ e)). cbn [up_to_dot]. rewrite E, I1, I2. split; reflexivity.
Qed.
Lemma base_name_lemma d b e : ~ In 46%Z b ->
  (name b -> base_name Unix (d ++ [47%Z] ++ b) = b) /\ (name (b ++ [46%Z] ++ e) -> base_name Unix (d ++ [47%Z] ++ b ++ [46%Z] ++ e) = b).
Proof.
  intros N. destruct (up_to_dot_app b e N) as [U1 U2].
  split; intro H; unfold base_name; rewrite (file_name_lemma d _ H); assumption.
Qed.

Lemma win_sep_spec c : win_sep c = true <-> In c slashes.
Proof.
  unfold win_sep. change slashes with [47%Z; 92%Z]. rewrite orb_true_iff, !Z.eqb_eq. cbn [In]. intuition congruence.
Qed.
Lemma win_sep_false c : win_sep c = false <-> ~ In c slashes.
Proof. rewrite <- win_sep_spec. destruct (win_sep c); intuition congruence. Qed.
Lemma letter_spec c : letter c = true <-> latin c.
Proof. unfold letter, latin. rewrite orb_true_iff, !andb_true_iff, !Z.leb_le. tauto. Qed.
Lemma win_drive_spec s : win_drive s = true <-> drive_path s.
Proof.
  unfold drive_path. split.
  - destruct s as [|a [|b r]]; try discriminate. cbn [win_drive]. rewrite !andb_true_iff, orb_true_iff, letter_spec, Z.eqb_eq.
    intros [[L ->] H]. exists a, r. split; [reflexivity|]. split; [exact L|]. destruct H as [H|H].
    + left. destruct r as [|c t]; [discriminate|]. exists c, t. split; [reflexivity|]. apply win_sep_spec, H.
    + right. intros c I0. rewrite forallb_forall in H. specialize (H c I0). apply Z.eqb_eq in H. congruence.
  - intros (a & r & -> & L & H). cbn [win_drive]. rewrite !andb_true_iff, orb_true_iff, letter_spec. split; [split; [exact L|reflexivity]|].
    destruct H as [(c & t & -> & H)|H]; [left; apply win_sep_spec, H|].
    right. apply forallb_forall. intros c I0. rewrite (H c I0). reflexivity.
Qed.
Lemma win_network_spec s : win_network s = true <-> host_path s.
Proof.
  unfold host_path. split.
  - destruct s as [|a [|b [|c r]]]; try discriminate. cbn [win_network]. rewrite !andb_true_iff, negb_true_iff, !win_sep_spec, win_sep_false.
    intros [[X Y] Z0]. exists a, b, c, r. auto.
  - intros (a & b & c & r & -> & X & Y & Z0). cbn [win_network]. rewrite !andb_true_iff, negb_true_iff, !win_sep_spec, win_sep_false. auto.
Qed.
Lemma windows_absolute_lemma s : is_absolute Windows s = true <-> drive_path s \/ host_path s.
Proof.
  rewrite <- win_drive_spec, <- win_network_spec. unfold is_absolute, abs_root.
  destruct (win_drive s) eqn:D.
  - destruct s as [|a [|b r]]; try discriminate. cbn [firstn]. split; [auto|]. intros _. reflexivity.
  - destruct (win_network s) eqn:W.
    + destruct s as [|a [|b [|c r]]]; try discriminate. cbn [firstn app]. split; [auto|]. intros _. reflexivity.
    + assert ((match s with [] => [] | c :: _ => if false then [c] else [] end : text) = []) as -> by (destruct s; reflexivity).
      split; [discriminate|intros [H|H]; discriminate].
Qed.
