(** Proofs about the search of the configuration file and type names. *)
From Verif Require Import Base Sample FindModel FindSpec.
Open Scope Z_scope.

Lemma sep_inside : forall d f, set_path_sep d ++ f = inside d f.
Proof. intros [|c d] f; [reflexivity|]. unfold set_path_sep, inside. destruct (last (c :: d) 0 =? 47); [reflexivity|]. rewrite <- app_assoc. reflexivity. Qed.
Lemma cmake_installed : forall e f, cmake_path (su_prefix e) (su_dir e) ++ f = inside (installed e) f.
Proof.
  intros e f. unfold cmake_path. rewrite sep_inside. f_equal. unfold installed.
  destruct (su_prefix e) as [|c p]; destruct (su_dir e) as [|d r]; try reflexivity.
  destruct (d =? 47) eqn:E; [assert (d = 47) by lia; subst; reflexivity|].
  destruct d as [|q|q]; try reflexivity.
  do 6 (destruct q as [q|q|]; try reflexivity). discriminate.
Qed.
Lemma map_places : forall e f, map (fun p => p ++ f) (set_path_sep (su_cwd e) :: default_paths e) = removelast (places e f).
Proof. intros e f. cbn [map default_paths places removelast]. rewrite !sep_inside, cmake_installed. reflexivity. Qed.
Lemma find_map : forall (g : text -> bool) f l,
  match find (fun p => g (p ++ f)) l with
  | Some p => exists b a, map (fun p => p ++ f) l = b ++ (p ++ f) :: a /\ g (p ++ f) = true /\ Forall (fun p => g p = false) b
  | None => Forall (fun p => g p = false) (map (fun p => p ++ f) l)
  end.
Proof.
  intros g f l. induction l as [|p l IH]; [constructor|]. cbn [find map]. destruct (g (p ++ f)) eqn:E.
  - exists [], (map (fun p => p ++ f) l). auto.
  - destruct (find (fun p => g (p ++ f)) l) as [q|].
    + destruct IH as (b & a & Eq & G & F). exists ((p ++ f) :: b), a. rewrite Eq. split; [reflexivity|]. split; [exact G|]. constructor; assumption.
    + constructor; assumption.
Qed.
Lemma places_last : forall e f, places e f = removelast (places e f) ++ [f].
Proof. reflexivity. Qed.
Lemma config_file_lemma : forall e f,
  (no_file e (places e f) -> config_file e f = []) /\ (forall r, first_file e (places e f) r -> config_file e f = r).
Proof.
  intros e f.
  assert (K : (no_file e (places e f) /\ config_file e f = []) \/ exists r, first_file e (places e f) r /\ config_file e f = r).
  { unfold config_file, find_path. pose proof (find_map (su_regular e) f (set_path_sep (su_cwd e) :: default_paths e)) as H.
    rewrite map_places in H. rewrite places_last.
    destruct (find (fun p => su_regular e (p ++ f)) (set_path_sep (su_cwd e) :: default_paths e)) as [p|].
    - destruct H as (b & a & Eq & G & F). right. exists (p ++ f). split.
      + exists b, (a ++ [f]). rewrite Eq, <- app_assoc. auto.
      + destruct p; [|reflexivity]. cbn [app] in G. rewrite G. reflexivity.
    - destruct (su_regular e f) eqn:E.
      + right. exists f. split; [|reflexivity]. exists (removelast (places e f)), []. auto.
      + left. split; [|reflexivity]. apply Forall_app. auto. }
  assert (U : forall l r r', first_file e l r -> first_file e l r' -> r = r').
  { intros l. induction l as [|x l IH]; intros r r' (b & a & E & G & F) (b' & a' & E' & G' & F'); [destruct b; discriminate|].
    destruct b as [|y b], b' as [|y' b']; cbn in E, E'; injection E as -> E; injection E' as -> E'; subst; auto.
    - inversion F' as [|? ? X _]; subst. congruence.
    - inversion F as [|? ? X _]; subst. congruence.
    - inversion F; inversion F'; subst. apply IH; [exists b, a|exists b', a']; auto. }
  assert (V : forall l r, no_file e l -> first_file e l r -> False).
  { intros l r N (b & a & -> & G & _). unfold no_file in N. rewrite Forall_forall in N. rewrite N in G; [discriminate|]. apply in_app_iff. right. left. reflexivity. }
  split.
  - intros N. destruct K as [[_ K]|(r & R & _)]; [exact K|]. destruct (V _ _ N R).
  - intros r R. destruct K as [[N _]|(r' & R' & ->)]; [destruct (V _ _ N R)|]. eapply U; eassumption.
Qed.

Lemma colon_none : forall s, colon_split s = None <-> ~ In 58 s.
Proof.
  induction s as [|c s IH]; [split; [intros _ []|reflexivity]|]. cbn [colon_split]. destruct (c =? 58) eqn:E.
  - split; [discriminate|]. intro H. exfalso. apply H. left. lia.
  - destruct (colon_split s) as [[a b]|].
    + split; [discriminate|]. intro H. exfalso. apply H. right. destruct (in_dec Z.eq_dec 58 s) as [I|N]; [exact I|]. apply IH in N. discriminate.
    + split; [|reflexivity]. intros _ [X|X]; [lia|]. apply IH in X; [exact X|reflexivity].
Qed.
Lemma colon_some : forall a b, ~ In 58 a -> colon_split (a ++ 58 :: b) = Some (a, b).
Proof.
  induction a as [|c a IH]; intros b N; [reflexivity|]. cbn [app colon_split].
  destruct (c =? 58) eqn:E; [exfalso; apply N; left; lia|]. rewrite IH; [reflexivity|]. intro; apply N; right; assumption.
Qed.
Lemma colon_parts : forall s a b, colon_split s = Some (a, b) -> s = a ++ 58 :: b /\ ~ In 58 a.
Proof.
  induction s as [|c s IH]; intros a b H; [discriminate|]. cbn [colon_split] in H. destruct (c =? 58) eqn:E.
  - injection H as <- <-. split; [|intros []]. replace c with 58 by lia. reflexivity.
  - destruct (colon_split s) as [[a' b']|]; [|discriminate]. injection H as <- <-.
    destruct (IH _ _ eq_refl) as [-> N]. split; [reflexivity|]. intros [X|X]; [lia|exact (N X)].
Qed.
Lemma split_combine_lemma : forall e t, split_type (combine_type e t) = (e, t) <-> ~ In 58 e /\ (e = [] -> ~ In 58 t).
Proof.
  intros e t. unfold split_type, combine_type. destruct e as [|c e].
  - destruct (colon_split t) as [[a b]|] eqn:E.
    + split; [intros H; injection H as -> ->; destruct (colon_parts _ _ _ E) as [X _]; apply (f_equal (@length Z)) in X; cbn in X; lia|].
      intros [_ N]. specialize (N eq_refl). apply colon_none in N. congruence.
    + split; [|reflexivity]. intros _. split; [intros []|]. intros _. apply colon_none. exact E.
  - change ([58] ++ t) with (58 :: t). split.
    + intros H. split; [|discriminate]. destruct (colon_split ((c :: e) ++ 58 :: t)) as [[a b]|] eqn:E; [|discriminate].
      injection H as -> ->. apply (colon_parts _ _ _ E).
    + intros [N _]. rewrite colon_some by exact N. reflexivity.
Qed.
Lemma combine_split_lemma : forall s, (let '(e, t) := split_type s in combine_type e t) = s <-> (forall r, s <> 58 :: r).
Proof.
  intros s. unfold split_type. destruct (colon_split s) as [[a b]|] eqn:E.
  - destruct (colon_parts _ _ _ E) as [-> N]. unfold combine_type. destruct a as [|c a].
    + split; [intros H; apply (f_equal (@length Z)) in H; cbn in H; lia|]. intros H. exfalso. apply (H b). reflexivity.
    + split; [|reflexivity]. intros _ r X. injection X as -> _. apply N. left. reflexivity.
  - split; [|reflexivity]. intros _ r ->. discriminate.
Qed.
