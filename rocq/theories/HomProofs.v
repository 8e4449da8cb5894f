(** Proofs about the directories of eCAL. *)
From Verif Require Import Base Sample StrModel StrSpec StrProofs PathModel PathSpec PathProofs LogModel LogSpec LogProofs HomModel HomSpec.

Lemma walk_iff s : forall ps a d, walk (hf_files s) a ps = Some d <-> follows s a ps d.
Proof.
  induction ps as [|p ps IH]; intros a d; cbn [walk].
  - split; [intros E; injection E as <-; constructor|]. inversion 1; reflexivity.
  - destruct (eqb p dot) eqn:E1; [apply eqb_true in E1; subst p|].
    { rewrite IH. split; [apply f_dot|]. inversion 1; subst; auto; try discriminate. exfalso. unfold dot in *. apply H2. reflexivity. }
    destruct (eqb p dots) eqn:E2; [apply eqb_true in E2; subst p|].
    { rewrite IH. split; [apply f_up|]. inversion 1; subst; auto; try discriminate. exfalso. unfold dots in *. apply H3. reflexivity. }
    apply eqb_false in E1. apply eqb_false in E2. split.
    + destruct (aget (a ++ [p]) (hf_files s)) as [[|]|] eqn:G; try discriminate. intros W. apply f_down; [exact E1|exact E2|right; exact G|apply IH, W].
    + inversion 1; subst; [exfalso; apply E1; reflexivity|exfalso; apply E2; reflexivity|]. destruct H5 as [X|X]; [destruct a; discriminate|]. rewrite X. apply IH. assumption.
Qed.
Lemma walk_app fs : forall ps qs a, walk fs a (ps ++ qs) = match walk fs a ps with Some d => walk fs d qs | None => None end.
Proof.
  induction ps as [|p ps IH]; intros qs a; cbn [walk app]; [reflexivity|]. destruct (eqb p dot); [apply IH|]. destruct (eqb p dots); [apply IH|]. destruct (aget _ fs) as [[|]|]; auto.
Qed.
Lemma walk_more fs fs' : (forall q, aget q fs = Some true -> aget q fs' = Some true) -> forall ps a d, walk fs a ps = Some d -> walk fs' a ps = Some d.
Proof.
  intros H. induction ps as [|p ps IH]; intros a d; cbn [walk]; [auto|]. destruct (eqb p dot); [apply IH|]. destruct (eqb p dots); [apply IH|]. destruct (aget _ fs) as [[|]|] eqn:G; try discriminate. rewrite (H _ G). apply IH.
Qed.

Definition plain (n : text) : Prop := part n /\ n <> dot /\ n <> dots.
Lemma plain_eqb n : plain n -> eqb n dot = false /\ eqb n dots = false.
Proof. intros (_ & A & B). split; apply neq_eqb; assumption. Qed.
(** What ensure does with a path of these components. *)
Definition add1 (s : hfs) (d : list text) (n : text) : hfs :=
  match aget (d ++ [n]) (hf_files s) with
  | None => if hf_may s d then Hfs (aset (d ++ [n]) true (hf_files s)) (hf_cwd s) (hf_may s) else s
  | Some _ => s
  end.
Lemma walk_last s a l n : plain n -> walk (hf_files s) a (l ++ [n]) =
  match walk (hf_files s) a l with Some d => match aget (d ++ [n]) (hf_files s) with Some true => Some (d ++ [n]) | _ => None end | None => None end.
Proof. intros P. rewrite walk_app. destruct (walk (hf_files s) a l) as [d|]; [|reflexivity]. cbn [walk]. destruct (plain_eqb _ P) as [-> ->]. reflexivity. Qed.
Lemma exists_spec s p : p <> [] -> dir_exists s p = match walk (hf_files s) (start_of s p) (cut p) with Some _ => true | None => false end.
Proof. destruct p; [congruence|reflexivity]. Qed.
Lemma ensure_spec s p l n : plain n -> p <> [] -> cut p = l ++ [n] ->
  ensure s p = match walk (hf_files s) (start_of s p) l with Some d => add1 s d n | None => s end.
Proof.
  intros P NE C. unfold ensure, create_dir. rewrite (exists_spec _ _ NE). change slash with 47%Z. rewrite C, rev_app_distr. cbn [rev app]. rewrite rev_involutive, (walk_last _ _ _ _ P). destruct (plain_eqb _ P) as [-> ->]. cbn [orb].
  destruct (walk (hf_files s) (start_of s p) l) as [d|]; [|reflexivity]. unfold add1. destruct (aget (d ++ [n]) (hf_files s)) as [[|]|]; reflexivity.
Qed.

(** ** The home directory *)
Definition hstart (s : hfs) (h : text) : list text := match h with [] => [] | 47%Z :: _ => [] | _ => hf_cwd s end.
Lemma start_home s h r : start_of s (h ++ 47%Z :: r) = hstart s h.
Proof. destruct h as [|c h]; reflexivity. Qed.
Lemma home_walk s h d : home_leads s h d <-> walk (hf_files s) (hstart s h) (cut h) = Some d.
Proof.
  destruct h as [|c h].
  - cbn. split; [intros ->; reflexivity|intros E; injection E as <-; reflexivity].
  - rewrite walk_iff. reflexivity.
Qed.
Lemma plain_ecal : plain (str ".ecal"). Proof. split; [split; [discriminate|]|split; discriminate]. vm_compute. intuition discriminate. Qed.
Lemma cut_home h : cut (h ++ [slash] ++ str ".ecal") = cut h ++ [str ".ecal"].
Proof. change (h ++ [slash] ++ str ".ecal") with (h ++ 47%Z :: str ".ecal"). rewrite cut_app. f_equal. Qed.
Definition root_dir (h : text) : text := h ++ [slash] ++ str ".ecal".
Lemma cut_below h n : part n -> cut ((root_dir h ++ [slash]) ++ n) = (cut h ++ [str ".ecal"]) ++ [n].
Proof. intros P. rewrite <- cut_home, <- app_assoc. change (root_dir h ++ [slash] ++ n) with (root_dir h ++ 47%Z :: n). rewrite cut_app, (cut_one n P). reflexivity. Qed.
Lemma start_root s h r : start_of s (root_dir h ++ r) = hstart s h.
Proof. unfold root_dir. rewrite <- app_assoc. apply (start_home s h (str ".ecal" ++ r)). Qed.
Lemma root_ne h r : root_dir h ++ r <> []. Proof. destruct h; discriminate. Qed.

Definition home1 (s : hfs) (h : text) : hfs := match walk (hf_files s) (hstart s h) (cut h) with Some d => add1 s d (str ".ecal") | None => s end.
Lemma home_form e s h : home_dir e = Some h -> get_home e s = Some (home1 s h, root_dir h ++ [slash]).
Proof.
  intros E. unfold get_home. rewrite E. fold (root_dir h). rewrite (ensure_spec s (root_dir h) (cut h) (str ".ecal") plain_ecal); [|rewrite <- (app_nil_r (root_dir h)); apply root_ne|apply cut_home].
  rewrite <- (app_nil_r (root_dir h)) at 1. rewrite start_root. reflexivity.
Qed.
Definition below1 (s : hfs) (h n : text) : hfs := match walk (hf_files s) (hstart s h) (cut h ++ [str ".ecal"]) with Some d => add1 s d n | None => s end.
Lemma below_form n e s h : plain n -> home_dir e = Some h -> get_below n e s = Some (below1 (home1 s h) h n, (root_dir h ++ [slash] ++ n) ++ [slash]).
Proof.
  intros P E. unfold get_below. rewrite (home_form _ _ _ E). rewrite (ensure_spec _ _ (cut h ++ [str ".ecal"]) n P); [|rewrite <- app_assoc; apply root_ne|apply cut_below, P].
  rewrite <- app_assoc, start_root. reflexivity.
Qed.

(** ** What changes *)
Lemma add1_may s d n : hf_may (add1 s d n) = hf_may s /\ hf_cwd (add1 s d n) = hf_cwd s.
Proof. unfold add1. destruct (aget _ _); [auto|]. destruct (hf_may s d); auto. Qed.
Lemma add1_get s d n q : aget q (hf_files (add1 s d n)) = if (eqb q (d ++ [n]) && match aget (d ++ [n]) (hf_files s) with None => hf_may s d | _ => false end)%bool then Some true else aget q (hf_files s).
Proof.
  unfold add1. destruct (aget (d ++ [n]) (hf_files s)) as [b|] eqn:G; [rewrite andb_false_r; reflexivity|]. destruct (hf_may s d); [|rewrite andb_false_r; reflexivity]. cbn [hf_files]. rewrite aget_aset, andb_true_r. reflexivity.
Qed.
Lemma add1_keeps s d n q : aget q (hf_files s) = Some true -> aget q (hf_files (add1 s d n)) = Some true.
Proof. intros H. rewrite add1_get. destruct (_ && _)%bool; auto. Qed.
Lemma add1_dir s d n : aget (d ++ [n]) (hf_files (add1 s d n)) = Some true <-> possible s d n.
Proof.
  rewrite add1_get, eqb_refl. cbn [andb]. unfold possible, is_directory, nothing. destruct (aget (d ++ [n]) (hf_files s)) as [[|]|] eqn:G.
  - split; [intros _; left; right; reflexivity|reflexivity].
  - split; [discriminate|]. intros [[H|H]|[H _]]; [destruct d; discriminate|discriminate|discriminate].
  - destruct (hf_may s d); split; auto; try discriminate. intros [[H|H]|[_ H]]; [destruct d; discriminate|discriminate|discriminate].
Qed.
Lemma snoc_neq {A} (d : list A) n : d ++ [n] <> d.
Proof. intros E. apply (f_equal (@length A)) in E. rewrite app_length in E. cbn in E. lia. Qed.
Lemma add1_other s d n q : q <> d ++ [n] -> aget q (hf_files (add1 s d n)) = aget q (hf_files s).
Proof. intros N. rewrite add1_get, (neq_eqb _ _ N). reflexivity. Qed.
Lemma possible_below s d n m : possible (add1 s d n) (d ++ [n]) m <-> possible s (d ++ [n]) m.
Proof.
  unfold possible, is_directory, nothing. rewrite (proj1 (add1_may s d n)), !add1_other by apply snoc_neq. reflexivity.
Qed.
Lemma hstart_add s d n h : hstart (add1 s d n) h = hstart s h.
Proof. unfold hstart. rewrite (proj2 (add1_may s d n)). reflexivity. Qed.
Lemma below_state s h n : below1 (home1 s h) h n =
  match walk (hf_files s) (hstart s h) (cut h) with
  | Some d => match aget (d ++ [str ".ecal"]) (hf_files (add1 s d (str ".ecal"))) with Some true => add1 (add1 s d (str ".ecal")) (d ++ [str ".ecal"]) n | _ => add1 s d (str ".ecal") end
  | None => s
  end.
Proof.
  unfold below1, home1. destruct (walk (hf_files s) (hstart s h) (cut h)) as [d|] eqn:W.
  - rewrite (walk_last _ _ _ _ plain_ecal), hstart_add. rewrite (walk_more _ _ (add1_keeps s d (str ".ecal")) _ _ _ W). destruct (aget (d ++ [str ".ecal"]) _) as [[|]|]; reflexivity.
  - rewrite (walk_last _ _ _ _ plain_ecal), W. reflexivity.
Qed.
Lemma below_walk s h n d' : plain n -> walk (hf_files (below1 (home1 s h) h n)) (hstart s h) ((cut h ++ [str ".ecal"]) ++ [n]) = Some d' <->
  exists d, walk (hf_files s) (hstart s h) (cut h) = Some d /\ possible s d (str ".ecal") /\ possible s (d ++ [str ".ecal"]) n /\ d' = (d ++ [str ".ecal"]) ++ [n].
Proof.
  intros P. rewrite below_state. destruct (walk (hf_files s) (hstart s h) (cut h)) as [d|] eqn:W.
  - assert (M : forall q, aget q (hf_files s) = Some true -> aget q (hf_files (match aget (d ++ [str ".ecal"]) (hf_files (add1 s d (str ".ecal"))) with Some true => add1 (add1 s d (str ".ecal")) (d ++ [str ".ecal"]) n | _ => add1 s d (str ".ecal") end)) = Some true).
    { intros q H. destruct (aget (d ++ [str ".ecal"]) _) as [[|]|]; [apply add1_keeps| |]; apply add1_keeps, H. }
    rewrite (walk_last _ _ _ _ P), (walk_last _ _ _ _ plain_ecal), (walk_more _ _ M _ _ _ W). clear M. pose proof (add1_dir s d (str ".ecal")) as D1. pose proof (possible_below s d (str ".ecal") n) as PB. pose proof (add1_dir (add1 s d (str ".ecal")) (d ++ [str ".ecal"]) n) as D2.
    destruct (aget (d ++ [str ".ecal"]) (hf_files (add1 s d (str ".ecal")))) as [[|]|] eqn:G.
    + rewrite (add1_keeps _ _ _ _ G). destruct (aget ((d ++ [str ".ecal"]) ++ [n]) _) as [[|]|] eqn:G2.
      * split; [intros E; injection E as <-; exists d; split; [reflexivity|]; split; [apply D1; reflexivity|]; split; [apply PB, D2; reflexivity|reflexivity]|]. intros (d0 & E & _ & _ & ->). injection E as <-. reflexivity.
      * split; [discriminate|]. intros (d0 & E & _ & B & _). injection E as <-. apply PB, D2 in B. discriminate.
      * split; [discriminate|]. intros (d0 & E & _ & B & _). injection E as <-. apply PB, D2 in B. discriminate.
    + rewrite G. split; [discriminate|]. intros (d0 & E & A & _). injection E as <-. apply D1 in A. discriminate.
    + rewrite G. split; [discriminate|]. intros (d0 & E & A & _). injection E as <-. apply D1 in A. discriminate.
  - rewrite !(walk_last _ _ _ _ P), (walk_last _ _ _ _ plain_ecal), W. split; [discriminate|]. intros (d & E & _). discriminate.
Qed.
Lemma below_cwd s h n : hf_cwd (below1 (home1 s h) h n) = hf_cwd s /\ hf_may (below1 (home1 s h) h n) = hf_may s.
Proof.
  rewrite below_state. destruct (walk (hf_files s) (hstart s h) (cut h)) as [d|]; [|auto]. destruct (aget _ _) as [[|]|]; rewrite ?(proj1 (add1_may _ _ _)), ?(proj2 (add1_may _ _ _)); auto.
Qed.

(** ** The statements *)
Lemma plain_names : plain (str "cfg") /\ plain (str "logs").
Proof. split; (split; [split; [discriminate|]|split; discriminate]); vm_compute; intuition discriminate. Qed.
Lemma defined_lemma n e s : get_below n e s = None <-> he_home e = None /\ he_passwd e = None.
Proof. unfold get_below, get_home, home_dir. destruct (he_home e), (he_passwd e); split; intros H; try discriminate; try (destruct H; discriminate); auto. Qed.
Lemma usable_below n e s s' p h : plain n -> home_dir e = Some h -> get_below n e s = Some (s', p) ->
  p = h ++ str "/.ecal/" ++ n ++ str "/" /\
  (forall d', leads s' p d' <-> exists d, home_leads s h d /\ possible s d (str ".ecal") /\ possible s (d ++ [str ".ecal"]) n /\ d' = d ++ [str ".ecal"; n]).
Proof.
  intros P E G. rewrite (below_form n e s h P E) in G. injection G as <- <-. split; [unfold root_dir; rewrite <- !app_assoc; reflexivity|].
  intros d'. unfold leads. rewrite <- walk_iff. set (p := (root_dir h ++ [slash] ++ n) ++ [slash]). change ((root_dir h ++ slash :: n) ++ [slash]) with p.
  assert (C : cut p = (cut h ++ [str ".ecal"]) ++ [n]). { unfold p. change [slash] with [47%Z]. rewrite cut_snoc. change [47%Z] with [slash]. rewrite (app_assoc (root_dir h)). apply cut_below, P. }
  assert (ST : forall s0, match p with 47%Z :: _ => [] | _ => hf_cwd s0 end = hstart s0 h). { intros s0. change (start_of s0 p = hstart s0 h). unfold p. rewrite <- app_assoc. apply start_root. }
  rewrite C, ST. replace (hstart (below1 (home1 s h) h n) h) with (hstart s h) by (unfold hstart; rewrite (proj1 (below_cwd s h n)); reflexivity). rewrite (below_walk s h n d' P). split.
  - intros (d & A & B & B2 & ->). exists d. split; [apply home_walk, A|]. split; [exact B|]. split; [exact B2|]. rewrite <- app_assoc. reflexivity.
  - intros (d & A & B & B2 & ->). exists d. split; [apply home_walk, A|]. split; [exact B|]. split; [exact B2|]. rewrite <- app_assoc. reflexivity.
Qed.
Lemma adds_one s d n : only_adds s (add1 s d n) [d ++ [n]].
Proof.
  split; [apply add1_may|]. split; [apply add1_may|]. intros q. rewrite add1_get. destruct (eqb q (d ++ [n])) eqn:E; cbn [andb]; [|left; reflexivity]. apply eqb_true in E. subst q. destruct (aget (d ++ [n]) (hf_files s)) eqn:G; [left; reflexivity|]. destruct (hf_may s d); [|left; reflexivity]. right. split; [left; reflexivity|]. split; [exact G|reflexivity].
Qed.
Lemma changes_below n e s s' p h : plain n -> home_dir e = Some h -> get_below n e s = Some (s', p) ->
  (forall d, home_leads s h d -> only_adds s s' [d ++ [str ".ecal"]; d ++ [str ".ecal"; n]]) /\ ((forall d, ~ home_leads s h d) -> s' = s).
Proof.
  intros P E G. rewrite (below_form n e s h P E) in G. injection G as <- <-. rewrite below_state. split.
  - intros d H. apply home_walk in H. rewrite H. destruct (adds_one s d (str ".ecal")) as (A1 & A2 & A3). change [str ".ecal"; n] with ([str ".ecal"] ++ [n]). rewrite (app_assoc d).
    destruct (aget (d ++ [str ".ecal"]) _) as [[|]|].
    + destruct (adds_one (add1 s d (str ".ecal")) (d ++ [str ".ecal"]) n) as (B1 & B2 & B3). split; [congruence|]. split; [congruence|]. intros q. destruct (B3 q) as [-> |(I1 & N1 & ->)].
      * destruct (A3 q) as [H1|([<-|[]] & H2)]; [left; exact H1|right]. split; [left; reflexivity|exact H2].
      * destruct I1 as [<-|[]]. right. split; [right; left; reflexivity|]. split; [|reflexivity]. unfold nothing in *. rewrite add1_other in N1 by apply snoc_neq. exact N1.
    + split; [exact A1|]. split; [exact A2|]. intros q. destruct (A3 q) as [H1|([<-|[]] & H2)]; [left; exact H1|right]. split; [left; reflexivity|exact H2].
    + split; [exact A1|]. split; [exact A2|]. intros q. destruct (A3 q) as [H1|([<-|[]] & H2)]; [left; exact H1|right]. split; [left; reflexivity|exact H2].
  - intros N. destruct (walk _ _ _) as [d|] eqn:W; [|reflexivity]. destruct (N d). apply home_walk, W.
Qed.
Lemma add1_again s d n : add1 (add1 s d n) d n = add1 s d n.
Proof.
  unfold add1 at 1. pose proof (add1_get s d n (d ++ [n])) as G. rewrite eqb_refl in G. cbn [andb] in G. rewrite G. destruct (aget (d ++ [n]) (hf_files s)) as [b|] eqn:E; [reflexivity|].
  destruct (hf_may s d) eqn:M; [reflexivity|]. rewrite (proj1 (add1_may s d n)), M. reflexivity.
Qed.
Lemma again_below n e s s' p : plain n -> get_below n e s = Some (s', p) -> get_below n e s' = Some (s', p).
Proof.
  intros P G. destruct (home_dir e) as [h|] eqn:E; [|unfold get_below, get_home in G; rewrite E in G; discriminate]. rewrite (below_form n e s h P E) in G. injection G as <- <-. rewrite (below_form n e _ h P E). f_equal. f_equal.
  rewrite (below_state (below1 _ _ _)). replace (hstart (below1 (home1 s h) h n) h) with (hstart s h) by (unfold hstart; rewrite (proj1 (below_cwd s h n)); reflexivity).
  rewrite (below_state s h n). destruct (walk (hf_files s) (hstart s h) (cut h)) as [d|] eqn:W; [|rewrite W; reflexivity].
  set (s1 := add1 s d (str ".ecal")). set (d1 := d ++ [str ".ecal"]). pose proof (walk_more _ _ (add1_keeps s d (str ".ecal")) _ _ _ W) as W1. fold s1 in W1.
  assert (A1 : add1 s1 d (str ".ecal") = s1) by apply add1_again.
  destruct (aget d1 (hf_files s1)) as [[|]|] eqn:G.
  - rewrite (walk_more _ _ (add1_keeps s1 d1 n) _ _ _ W1). assert (G2 : aget d1 (hf_files (add1 s1 d1 n)) = Some true) by (apply add1_keeps, G).
    assert (A2 : add1 (add1 s1 d1 n) d (str ".ecal") = add1 s1 d1 n). { unfold add1 at 1. change (d ++ [str ".ecal"]) with d1. rewrite G2. reflexivity. }
    rewrite A2. change (d ++ [str ".ecal"]) with d1. rewrite G2. apply add1_again.
  - rewrite W1, A1. change (d ++ [str ".ecal"]) with d1. rewrite G. reflexivity.
  - rewrite W1, A1. change (d ++ [str ".ecal"]) with d1. rewrite G. reflexivity.
Qed.
Lemma log_dir_lemma e s s' r h : home_dir e = Some h -> log_dir e s = Some (s', r) ->
  (exists d, home_leads s h d /\ possible s d (str ".ecal") /\ possible s (d ++ [str ".ecal"]) (str "logs")) /\ r = Some (h ++ str "/.ecal/logs/") \/
  (forall d, home_leads s h d -> ~ (possible s d (str ".ecal") /\ possible s (d ++ [str ".ecal"]) (str "logs"))) /\ r = None.
Proof.
  intros E L. unfold log_dir in L. destruct (get_logs e s) as [[s1 p]|] eqn:G; [|discriminate]. injection L as <- <-. destruct (usable_below _ _ _ _ _ _ (proj2 plain_names) E G) as [PE U].
  assert (NE : p <> []) by (subst p; destruct h; discriminate). rewrite (exists_spec _ _ NE). destruct (walk (hf_files s1) (start_of s1 p) (cut p)) as [d'|] eqn:W.
  - left. assert (LD : leads s1 p d') by (apply walk_iff, W). apply U in LD. destruct LD as (d & A & B & C & _). split; [exists d; auto|]. rewrite PE. reflexivity.
  - right. split; [|reflexivity]. intros d H [A B]. assert (LD : leads s1 p (d ++ [str ".ecal"; str "logs"])) by (apply U; exists d; auto). unfold leads in LD. apply walk_iff in LD. unfold start_of in W. rewrite W in LD. discriminate.
Qed.
Lemma home_lemma e s s' p h : home_dir e = Some h -> get_home e s = Some (s', p) ->
  p = h ++ str "/.ecal/" /\ (forall d', leads s' p d' <-> exists d, home_leads s h d /\ possible s d (str ".ecal") /\ d' = d ++ [str ".ecal"]).
Proof.
  intros E G. rewrite (home_form e s h E) in G. injection G as <- <-. split; [unfold root_dir; rewrite <- !app_assoc; reflexivity|]. intros d'. unfold leads. rewrite <- walk_iff.
  change [slash] with [47%Z]. rewrite cut_snoc. change (cut (root_dir h)) with (cut (h ++ [slash] ++ str ".ecal")). rewrite cut_home.
  assert (ST : forall s0, match root_dir h ++ [47%Z] with 47%Z :: _ => [] | _ => hf_cwd s0 end = hstart s0 h) by (intros s0; exact (start_root s0 h [47%Z])). rewrite ST.
  rewrite (walk_last _ _ _ _ plain_ecal). unfold home1. destruct (walk (hf_files s) (hstart s h) (cut h)) as [d|] eqn:W.
  - rewrite hstart_add, (walk_more _ _ (add1_keeps s d (str ".ecal")) _ _ _ W). pose proof (add1_dir s d (str ".ecal")) as D1. destruct (aget _ _) as [[|]|].
    + split; [intros X; injection X as <-; exists d; split; [apply home_walk, W|]; split; [apply D1; reflexivity|reflexivity]|]. intros (d0 & H & _ & ->). apply home_walk in H. rewrite W in H. injection H as <-. reflexivity.
    + split; [discriminate|]. intros (d0 & H & B & _). apply home_walk in H. rewrite W in H. injection H as <-. apply D1 in B. discriminate.
    + split; [discriminate|]. intros (d0 & H & B & _). apply home_walk in H. rewrite W in H. injection H as <-. apply D1 in B. discriminate.
  - rewrite W. split; [discriminate|]. intros (d0 & H & _). apply home_walk in H. congruence.
Qed.
(** ** Counterexamples *)
Lemma no_home v d : v <> str "u" -> eqb v dot = false -> eqb v dots = false -> part v -> ~ home_leads ho_fs (str "/home/" ++ v) d.
Proof.
  intros N A B P H. apply home_walk in H. change (str "/home/" ++ v) with (str "/home" ++ 47%Z :: v) in H. rewrite cut_app, (cut_one v P) in H. rewrite walk_app in H. change (walk (hf_files ho_fs) (hstart ho_fs (str "/home" ++ 47%Z :: v)) (cut (str "/home"))) with (Some [str "home"]) in H.
  cbn [walk] in H. rewrite A, B in H. cbn [app hf_files ho_fs aget] in H. rewrite !neq_eqb in H; [discriminate| |]; intros X; injection X as X; try discriminate. apply N. congruence.
Qed.
Lemma silent_lemma : exists e s, sound s /\ (forall d, hf_may s d = true) /\ (exists p d, he_passwd e = Some p /\ leads s p d) /\ log_dir e s = Some (s, None) /\
  forall me u c stamp opened ops, sk_mask (lc_file c) <> 0%Z -> Forall (fun op => begins op = false) ops ->
    Forall (fun ev => ev = EFetched [] \/ ev = EBuffer []) (snd (log_run me (LStart c None stamp opened :: ops) (log0 u))).
Proof.
  exists ho_missing, ho_fs. split; [|split; [reflexivity|]].
  - intros q x H. unfold ho_fs in *. cbn [hf_files aget] in *. destruct (eqb (q ++ [x]) [str "home"]) eqn:E1.
    + apply eqb_true in E1. destruct q as [|a q]; [left; reflexivity|]. destruct q; discriminate.
    + destruct (eqb (q ++ [x]) [str "home"; str "u"]) eqn:E2; [|congruence]. apply eqb_true in E2. destruct q as [|a [|b q]]; [discriminate| |destruct q; discriminate]. injection E2 as -> ->. right. vm_compute. reflexivity.
  - split; [exists (str "/home/u"), [str "home"; str "u"]; split; [reflexivity|]; apply walk_iff; vm_compute; reflexivity|]. split; [vm_compute; reflexivity|]. exact missing_lemma.
Qed.
Lemma file_lemma : exists e s s' p h d, home_dir e = Some h /\ home_leads s h d /\ is_directory s d /\ (forall d, hf_may s d = true) /\ get_logs e s = Some (s', p) /\ s' = s /\ forall d', ~ leads s' p d'.
Proof.
  exists ho_env, ho_file, ho_file, (str "/home/u/.ecal/logs/"), (str "/home/u"), [str "home"; str "u"]. split; [reflexivity|]. split; [apply home_walk; vm_compute; reflexivity|]. split; [right; vm_compute; reflexivity|]. split; [reflexivity|]. split; [vm_compute; reflexivity|]. split; [reflexivity|].
  intros d' H. apply walk_iff in H. vm_compute in H. discriminate.
Qed.
Lemma empty_home_lemma s pw : exists s', get_home (Henv (Some []) pw) s = Some (s', str "/.ecal/") /\ (hf_may s [] = true -> nothing s [str ".ecal"] -> is_directory s' [str ".ecal"]).
Proof.
  exists (home1 s []). split; [exact (home_form (Henv (Some []) pw) s [] eq_refl)|]. intros M N. right. apply (add1_dir s [] (str ".ecal")). right. split; assumption.
Qed.
