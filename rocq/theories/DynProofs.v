(** Lemmas about the dynamic protobuf decoder. *)
From Verif Require Import Base Sample FdsModel FdsSpec FdsProofs DynModel DynSpec.

Lemma type_name_qualified t : type_name (fp_package (fst t)) (snd t) = qualified t.
Proof. unfold type_name, qualified. destruct (fp_package (fst t)) as [|c p]; [rewrite eqb_refl; reflexivity|]. rewrite (neq_eqb (c :: p) []) by discriminate. reflexivity. Qed.
Lemma type_name_of f n : type_name (fp_package f) n = qualified (f, n).
Proof. exact (type_name_qualified (f, n)). Qed.
Lemma types_in f t : In t (types_of f) -> fst t = f.
Proof. unfold types_of. intros H. apply in_map_iff in H as [n [<- _]]. reflexivity. Qed.

Lemma pool_file_some p n g : pool_file p n = Some g -> In g p /\ fp_name g = n.
Proof. unfold pool_file. intros H. apply find_some in H as [H1 H2]. split; [exact H1|exact (eqb_true _ _ H2)]. Qed.
Lemma pool_file_none p n : pool_file p n = None <-> ~ In n (map fp_name p).
Proof.
  unfold pool_file. split.
  - intros H C. apply in_map_iff in C as [g [E I]]. pose proof (find_none _ _ H g I) as F. cbn in F. rewrite E, eqb_refl in F. discriminate.
  - intros H. destruct (find _ p) as [g|] eqn:E; [|reflexivity]. apply find_some in E as [I E]. apply eqb_true in E.
    exfalso. apply H. rewrite <- E. apply in_map. exact I.
Qed.
Lemma pool_file_in p g : In g p -> NoDup (map fp_name p) -> pool_file p (fp_name g) = Some g.
Proof.
  induction p as [|a p IH]; [intros []|]. cbn [map]. intros H N. inversion N as [|? ? N1 N2]; subst. unfold pool_file. cbn [find].
  destruct (eqb (fp_name a) (fp_name g)) eqn:E.
  - destruct H as [->|H]; [reflexivity|]. apply eqb_true in E. exfalso. apply N1. rewrite E. apply in_map. exact H.
  - destruct H as [->|H]; [rewrite eqb_refl in E; discriminate|]. exact (IH H N2).
Qed.
Lemma pool_type_some p x t : pool_type p x = Some t -> In (fst t) p /\ In t (types_of (fst t)) /\ qualified t = x.
Proof.
  unfold pool_type, called_so. intros H. apply find_some in H as [H1 H2]. apply in_flat_map in H1 as [f [H0 H1]].
  pose proof (types_in _ _ H1) as E. rewrite E. apply eqb_true in H2. rewrite type_name_qualified in H2. repeat split; assumption.
Qed.
Lemma pool_type_none p x : pool_type p x = None <-> forall f t, In f p -> In t (types_of f) -> qualified t <> x.
Proof.
  unfold pool_type, called_so. split.
  - intros H f t If It C. pose proof (find_none _ _ H t) as F. cbn in F. rewrite type_name_qualified, C, eqb_refl in F.
    discriminate F. apply in_flat_map. exists f. split; assumption.
  - intros H. destruct (find _ _) as [t|] eqn:E; [|reflexivity]. apply find_some in E as [I E]. apply in_flat_map in I as [f [If It]].
    apply eqb_true in E. rewrite type_name_qualified in E. exfalso. exact (H f t If It E).
Qed.

(** Building. *)
Lemma build_some p f p' : build p f = Some p' -> (p' = p /\ In f p) \/ (p' = p ++ [f] /\ ~ In (fp_name f) (map fp_name p)).
Proof.
  unfold build. destruct (pool_file p (fp_name f)) as [g|] eqn:E.
  - destruct (eqb g f) eqn:G; [|discriminate]. apply eqb_true in G. subst g. intros H. injection H as <-. left.
    split; [reflexivity|exact (proj1 (pool_file_some _ _ _ E))].
  - destruct (_ && _)%bool; [|discriminate]. intros H. injection H as <-. right. split; [reflexivity|apply pool_file_none; exact E].
Qed.
Lemma build_new p f : ~ In (fp_name f) (map fp_name p) -> (forall d, In d (fp_deps f) -> exists g, In g p /\ fp_name g = d) ->
  (forall g x y, In g p -> In x (types_of f) -> In y (types_of g) -> qualified x <> qualified y) -> build p f = Some (p ++ [f]).
Proof.
  intros Hn Hd Ht. unfold build. rewrite (proj2 (pool_file_none _ _) Hn).
  replace (_ && _)%bool with true; [reflexivity|]. symmetry. apply andb_true_iff. split; apply forallb_forall.
  - intros d I. destruct (pool_file p d) eqn:E; [reflexivity|]. apply pool_file_none in E. exfalso. apply E.
    destruct (Hd d I) as [g [Ig <-]]. apply in_map. exact Ig.
  - intros t I. destruct (pool_type p _) as [u|] eqn:E; [|reflexivity]. apply pool_type_some in E as [E1 [E2 E3]].
    rewrite type_name_of in E3. rewrite <- (types_in _ _ I) in E3. exfalso. exact (Ht (fst u) t u E1 I E2 (eq_sym (eq_trans E3 ltac:(destruct t; reflexivity)))).
Qed.
Lemma build_old p f : In f p -> NoDup (map fp_name p) -> build p f = Some p.
Proof. intros H N. unfold build. rewrite (pool_file_in p f H N), eqb_refl. reflexivity. Qed.

Lemma loop_orderly fs : forall p n l f, orderly (p ++ fs ++ [f]) -> (forall g, In g fs -> hd_error (fp_top g) <> Some n) ->
  build_loop p n l (fs ++ [f]) = (p ++ fs ++ [f], Some f).
Proof.
  induction fs as [|g fs IH]; intros p n l f O H; cbn [app build_loop] in *.
  - rewrite (build_new p f).
    + destruct (first_is f n); reflexivity.
    + pose proof (o_names _ O) as N. rewrite map_app in N. cbn [map] in N. apply NoDup_remove_2 in N. rewrite app_nil_r in N. exact N.
    + intros d I. exact (o_deps _ O p f [] d eq_refl I).
    + intros g x y. exact (o_types _ O p f [] g x y eq_refl).
  - rewrite (build_new p g).
    + replace (first_is g n) with false.
      * change (g :: fs ++ [f]) with ([g] ++ (fs ++ [f])). rewrite app_assoc.
        apply IH; [rewrite <- app_assoc; exact O|]. intros g' I. apply H. right. exact I.
      * symmetry. unfold first_is. specialize (H g (or_introl eq_refl)). destruct (fp_top g) as [|a r]; [reflexivity|].
        cbn in H. apply neq_eqb. intros ->. apply H. reflexivity.
    + pose proof (o_names _ O) as N. rewrite map_app in N. cbn [map] in N. apply NoDup_remove_2 in N. intros C. apply N. apply in_or_app. left. exact C.
    + intros d I. exact (o_deps _ O p g (fs ++ [f]) d eq_refl I).
    + intros g' x y. exact (o_types _ O p g (fs ++ [f]) g' x y eq_refl).
Qed.
Lemma has_top f n : In n (fp_top f) -> existsb (eqb n) (fp_top f) = true.
Proof. intros H. apply existsb_exists. exists n. split; [exact H|apply eqb_refl]. Qed.
Lemma right_lemma fs f n : orderly (fs ++ [f]) -> In n (fp_top f) -> (forall g, In g fs -> hd_error (fp_top g) <> Some n) ->
  get_message [] (fs ++ [f]) n = (fs ++ [f], Some (f, n)).
Proof.
  intros O I H. unfold get_message. change (pool_type [] n) with (@None mtype). cbv iota.
  rewrite (loop_orderly fs [] n None f O H). cbn [app]. rewrite (has_top f n I). reflexivity.
Qed.

Lemma existsb_dot s : existsb (Z.eqb 46) s = true <-> In 46%Z s.
Proof. rewrite existsb_exists. split; [intros [x [I E]]; apply Z.eqb_eq in E; subst; exact I|intros I; exists 46%Z; split; [exact I|reflexivity]]. Qed.
Lemma short_none n : ~ In 46%Z n -> short_name n = n.
Proof.
  intros H. destruct n as [|c s]; [reflexivity|]. cbn [short_name]. destruct (existsb (Z.eqb 46) (c :: s)) eqn:E; [|reflexivity].
  apply existsb_dot in E. contradiction.
Qed.
Lemma short_dot p n : ~ In 46%Z n -> short_name (p ++ 46%Z :: n) = n.
Proof.
  intros H. induction p as [|c p IH]; cbn [app short_name].
  - replace (existsb (Z.eqb 46) (46%Z :: n)) with true by reflexivity. exact (short_none n H).
  - replace (existsb _ _) with true; [exact IH|]. symmetry. apply existsb_dot. right. apply in_or_app. right. left. reflexivity.
Qed.
Lemma short_qualified f n : ~ In 46%Z n -> short_name (qualified (f, n)) = n.
Proof.
  intros H. unfold qualified. cbn [fst snd]. destruct (eqb (fp_package f) []); [exact (short_none n H)|].
  exact (short_dot (fp_package f) n H).
Qed.
Lemma create_qualified p f n fs : simple_name n -> fs <> [] -> create_message p (qualified (f, n), fs) = get_message p fs n.
Proof.
  intros [N1 N2] F. unfold create_message. cbn [fst snd]. rewrite (short_qualified f n N2).
  destruct n as [|c n]; [congruence|]. destruct fs; [congruence|reflexivity].
Qed.
Lemma decodes_lemma left fs f n : orderly (fs ++ [f]) -> In n (fp_top f) -> simple_name n ->
  (forall g, In g fs -> hd_error (fp_top g) <> Some n) ->
  answer_after left [] (qualified (f, n), fs ++ [f]) = DMessage (f, n).
Proof.
  intros O I N H. unfold answer_after, deser_run, deserialize. cbn [fold_left deser_init de_map aget de_pool].
  rewrite (create_qualified [] f n (fs ++ [f]) N) by (intros C; exact (app_cons_not_nil _ _ _ (eq_sym C))).
  rewrite (right_lemma fs f n O I H). reflexivity.
Qed.

(** The wrong type: the first file whose first type has this name. *)
Lemma first_lemma fs g r n : orderly (fs ++ [g] ++ r) -> hd_error (fp_top g) = Some n -> (forall h, In h fs -> hd_error (fp_top h) <> Some n) ->
  get_message [] (fs ++ [g] ++ r) n = (fs ++ [g], Some (g, n)).
Proof.
  intros O E H. unfold get_message. change (pool_type [] n) with (@None mtype). cbv iota.
  assert (Q : forall p l, orderly (p ++ fs ++ [g] ++ r) -> build_loop p n l (fs ++ [g] ++ r) = (p ++ fs ++ [g], Some g)).
  { clear O. revert H. induction fs as [|a fs IH]; intros H p l O; cbn [app build_loop] in *.
    - rewrite (build_new p g).
      + unfold first_is. destruct (fp_top g) as [|b q]; [discriminate|]. cbn in E. injection E as ->. rewrite eqb_refl. reflexivity.
      + pose proof (o_names _ O) as N. rewrite map_app in N. cbn [map] in N. apply NoDup_remove_2 in N. intros C. apply N. apply in_or_app. left. exact C.
      + intros d I. exact (o_deps _ O p g r d eq_refl I).
      + intros g' x y. exact (o_types _ O p g r g' x y eq_refl).
    - rewrite (build_new p a).
      + replace (first_is a n) with false.
        * change (a :: fs ++ [g]) with ([a] ++ (fs ++ [g])). rewrite app_assoc.
          apply IH; [intros h I; apply H; right; exact I|]. rewrite <- app_assoc. exact O.
        * symmetry. unfold first_is. specialize (H a (or_introl eq_refl)). destruct (fp_top a) as [|b q]; [reflexivity|].
          cbn in H. apply neq_eqb. intros ->. apply H. reflexivity.
      + pose proof (o_names _ O) as N. rewrite map_app in N. cbn [map] in N. apply NoDup_remove_2 in N. intros C. apply N. apply in_or_app. left. exact C.
      + intros d I. exact (o_deps _ O p a (fs ++ g :: r) d eq_refl I).
      + intros g' x y. exact (o_types _ O p a (fs ++ g :: r) g' x y eq_refl). }
  rewrite (Q [] None O). cbn [app]. rewrite has_top; [reflexivity|].
  destruct (fp_top g) as [|b q]; [discriminate|]. cbn in E. injection E as ->. left. reflexivity.
Qed.
Lemma wrong_lemma left fs g r f n : orderly (fs ++ [g] ++ r) -> In f r -> simple_name n ->
  hd_error (fp_top g) = Some n -> (forall h, In h fs -> hd_error (fp_top h) <> Some n) ->
  answer_after left [] (qualified (f, n), fs ++ [g] ++ r) = DMessage (g, n) /\ g <> f.
Proof.
  intros O I N E H. split.
  - unfold answer_after, deser_run, deserialize. cbn [fold_left deser_init de_map aget de_pool].
    rewrite (create_qualified [] f n _ N) by (destruct fs; discriminate). rewrite (first_lemma fs g r n O E H). reflexivity.
  - intros ->. pose proof (o_names _ O) as D. rewrite map_app in D. cbn [app map] in D. apply NoDup_remove_2 in D. apply D.
    apply in_or_app. right. apply in_map. exact I.
Qed.

(** What every call leaves. *)
Definition pool_ok (p : pool) : Prop := NoDup (map fp_name p).
Lemma build_ok p f p' : pool_ok p -> build p f = Some p' -> pool_ok p' /\ incl p p' /\ In f p'.
Proof.
  intros O H. apply build_some in H as [[-> H]|[-> H]].
  - repeat split; [exact O|apply incl_refl|exact H].
  - repeat split; [|apply incl_appl, incl_refl|apply in_or_app; right; left; reflexivity].
    unfold pool_ok. rewrite map_app. cbn [map]. apply nodup_snoc; assumption.
Qed.
Lemma loop_ok fs : forall p n l p' r, pool_ok p -> (forall f, l = Some f -> In f p) -> build_loop p n l fs = (p', r) ->
  pool_ok p' /\ incl p p' /\ forall f, r = Some f -> In f p'.
Proof.
  induction fs as [|f fs IH]; intros p n l p' r O L; cbn [build_loop].
  - intros H. injection H as <- <-. repeat split; [exact O|apply incl_refl|exact L].
  - destruct (build p f) as [q|] eqn:B.
    + destruct (build_ok p f q O B) as [O' [I' F']]. destruct (first_is f n).
      * intros H. injection H as <- <-. repeat split; [exact O'|exact I'|]. intros g E. injection E as <-. exact F'.
      * intros H. destruct (IH q n (Some f) p' r O') as [A [B' C]]; [intros g E; injection E as <-; exact F'|exact H|].
        repeat split; [exact A|exact (incl_tran I' B')|exact C].
    + intros H. injection H as <- <-. repeat split; [exact O|apply incl_refl|discriminate].
Qed.
Lemma get_ok p fs n p' r : pool_ok p -> get_message p fs n = (p', r) ->
  pool_ok p' /\ incl p p' /\ forall t, r = Some t -> In (fst t) p'.
Proof.
  intros O. unfold get_message. destruct (pool_type p n) as [t|] eqn:T.
  - intros H. injection H as <- <-. repeat split; [exact O|apply incl_refl|]. intros u E. injection E as <-.
    exact (proj1 (pool_type_some _ _ _ T)).
  - destruct (build_loop p n None fs) as [q l] eqn:B. destruct (loop_ok fs p n None q l O ltac:(discriminate) B) as [O' [I' F']].
    destruct l as [f|]; [destruct (existsb (eqb n) (fp_top f))|]; intros H; injection H as <- <-;
      (repeat split; [exact O'|exact I'|]); intros t E; try discriminate E. injection E as <-. exact (F' f eq_refl).
Qed.
Lemma create_ok p i p' r : pool_ok p -> create_message p i = (p', r) ->
  pool_ok p' /\ incl p p' /\ forall t, r = Some t -> In (fst t) p'.
Proof.
  intros O. unfold create_message. destruct (short_name (fst i)) as [|c s].
  - intros H. injection H as <- <-. repeat split; [exact O|apply incl_refl|discriminate].
  - destruct (snd i) as [|f fs].
    + intros H. injection H as <- <-. repeat split; [exact O|apply incl_refl|discriminate].
    + exact (get_ok p (f :: fs) (c :: s) p' r O).
Qed.

Definition deser_ok (s : deser) : Prop := pool_ok (de_pool s) /\ forall i t, aget i (de_map s) = Some (Some t) -> In (fst t) (de_pool s).
Lemma deserialize_ok left s i : deser_ok s -> deser_ok (fst (deserialize left s i)) /\ incl (de_pool s) (de_pool (fst (deserialize left s i))) /\
  (forall t, snd (deserialize left s i) = DMessage t -> In (fst t) (de_pool (fst (deserialize left s i))) /\ aget i (de_map (fst (deserialize left s i))) = Some (Some t)) /\
  (forall j t, aget j (de_map s) = Some (Some t) -> aget j (de_map (fst (deserialize left s i))) = Some (Some t)).
Proof.
  intros [O M]. unfold deserialize. destruct (aget i (de_map s)) as [[t|]|] eqn:G.
  - cbn [fst snd]. repeat split; [exact O|exact M|apply incl_refl| | |intros j u H; exact H].
    + injection H as <-. exact (M i t G).
    + injection H as <-. exact G.
  - cbn [fst snd]. repeat split; [exact O|exact M|apply incl_refl| | |intros j u H; exact H]; discriminate.
  - destruct (create_message (de_pool s) i) as [p r] eqn:C. destruct (create_ok _ _ _ _ O C) as [O' [I' F']]. destruct r as [t|].
    + cbn [fst snd de_pool de_map]. repeat split; cbn [de_pool de_map].
      * exact O'.
      * intros j u. rewrite aget_aset. destruct (eqb j i) eqn:E; [intros H; injection H as <-; exact (F' t eq_refl)|intros H; exact (I' _ (M j u H))].
      * exact I'.
      * injection H as <-. exact (F' t eq_refl).
      * injection H as <-. apply aget_aset_same.
      * intros j u H. rewrite aget_aset. destruct (eqb j i) eqn:E; [apply eqb_true in E; subst j; rewrite G in H; discriminate|exact H].
    + cbn [fst snd de_pool de_map]. repeat split; cbn [de_pool de_map]; try discriminate.
      * exact O'.
      * intros j u H. apply I'. apply (M j u). destruct left; [|exact H]. rewrite aget_aset in H. destruct (eqb j i); [discriminate|exact H].
      * exact I'.
      * intros j u H. destruct left; [|exact H]. rewrite aget_aset. destruct (eqb j i) eqn:E; [apply eqb_true in E; subst j; rewrite G in H; discriminate|exact H].
Qed.
Lemma run_snoc left is i : deser_run left (is ++ [i]) = fst (deserialize left (deser_run left is) i).
Proof. unfold deser_run. rewrite fold_left_app. reflexivity. Qed.
Lemma run_ok left is : deser_ok (deser_run left is).
Proof.
  induction is as [|i is IH] using rev_ind; [split; [apply NoDup_nil|discriminate]|]. rewrite run_snoc. exact (proj1 (deserialize_ok left _ i IH)).
Qed.
Lemma run_more left is js : incl (de_pool (deser_run left is)) (de_pool (deser_run left (is ++ js))) /\
  forall i t, aget i (de_map (deser_run left is)) = Some (Some t) -> aget i (de_map (deser_run left (is ++ js))) = Some (Some t).
Proof.
  induction js as [|j js IH] using rev_ind; [rewrite app_nil_r; split; [apply incl_refl|intros i t H; exact H]|].
  rewrite app_assoc, run_snoc. destruct (deserialize_ok left _ j (run_ok left (is ++ js))) as [_ [B [_ D]]]. destruct IH as [I1 I2].
  split; [exact (incl_tran I1 B)|]. intros i t H. exact (D i t (I2 i t H)).
Qed.
Lemma stable_lemma left is i t js : answer_after left is i = DMessage t -> answer_after left (is ++ i :: js) i = DMessage t.
Proof.
  intros H. unfold answer_after in *. destruct (deserialize_ok left _ i (run_ok left is)) as [_ [_ [C _]]]. destruct (C t H) as [_ E].
  rewrite <- run_snoc in E. pose proof (proj2 (run_more left (is ++ [i]) js) i t E) as G. rewrite <- app_assoc in G. cbn [app] in G.
  unfold deserialize. rewrite G. reflexivity.
Qed.
Lemma old_lemma left is i t js j u : answer_after left is i = DMessage t -> answer_after left (is ++ i :: js) j = DMessage u ->
  fp_name (fst u) = fp_name (fst t) -> fst u = fst t.
Proof.
  unfold answer_after. intros H K E. destruct (deserialize_ok left _ i (run_ok left is)) as [_ [_ [C _]]]. destruct (C t H) as [F _].
  rewrite <- run_snoc in F. pose proof (proj1 (run_more left (is ++ [i]) js) _ F) as F1. rewrite <- app_assoc in F1. cbn [app] in F1.
  destruct (deserialize_ok left _ j (run_ok left (is ++ i :: js))) as [[O _] [B [C' _]]]. destruct (C' u K) as [F2 _].
  specialize (B _ F1). pose proof (pool_file_in _ _ B O) as P1. pose proof (pool_file_in _ _ F2 O) as P2. rewrite E in P2. rewrite P1 in P2.
  injection P2 as <-. reflexivity.
Qed.

(** Null entries. *)
Lemma no_crash is i : answer_after false is i <> DCrash.
Proof.
  assert (Q : forall j, aget j (de_map (deser_run false is)) <> Some None).
  { induction is as [|k is IH] using rev_ind; [discriminate|]. rewrite run_snoc. unfold deserialize.
    destruct (aget k (de_map (deser_run false is))) as [[t|]|] eqn:G; try exact IH. destruct (create_message _ k) as [p [t|]]; [|exact IH].
    intros j. cbn [fst de_map]. rewrite aget_aset. destruct (eqb j k); [discriminate|exact (IH j)]. }
  unfold answer_after, deserialize. destruct (aget i _) as [[t|]|] eqn:G; [discriminate|exfalso; exact (Q i G)|].
  destruct (create_message _ i) as [p [t|]]; discriminate.
Qed.
Lemma crash_lemma is i : answer_after true is i = DException -> answer_after true (is ++ [i]) i = DCrash.
Proof.
  unfold answer_after. rewrite run_snoc. unfold deserialize at 1 3. destruct (aget i (de_map (deser_run true is))) as [[t|]|] eqn:G; try discriminate.
  destruct (create_message _ i) as [p [t|]]; [discriminate|]. intros _. cbn [fst]. unfold deserialize. cbn [de_map]. rewrite aget_aset_same. reflexivity.
Qed.

(** Descriptors made of one text. *)
Lemma orderly_one f : fp_deps f = [] -> orderly [f].
Proof.
  intros D. split.
  - cbn. apply NoDup_cons; [intros []|apply NoDup_nil].
  - intros a g b d E I. destruct a as [|x a]; [cbn in E; injection E as <- _; rewrite D in I; destruct I|].
    cbn in E. injection E as _ E. destruct a; discriminate.
  - intros a g b h x y E I. destruct a as [|z a]; [destruct I|]. cbn in E. injection E as _ E. destruct a; discriminate.
Qed.
Lemma service_first f x : fp_deps f = [] -> In x (fp_top f) -> service_type [] f x = ([named_foo f], Some [named_foo f]).
Proof.
  intros D I. unfold service_type. change [named_foo f] with ([] ++ [named_foo f]) at 1. rewrite (right_lemma [] (named_foo f) x (orderly_one (named_foo f) D) I ltac:(intros g [])). reflexivity.
Qed.
Lemma names_one f : NoDup (map fp_name [named_foo f]).
Proof. cbn. apply NoDup_cons; [intros []|apply NoDup_nil]. Qed.
Lemma service_next f x : In x (fp_top f) -> service_type [named_foo f] f x = ([named_foo f], Some [named_foo f]).
Proof.
  intros I. unfold service_type, get_message. destruct (pool_type [named_foo f] x) as [t|]; [reflexivity|].
  cbn [build_loop]. rewrite (build_old [named_foo f] (named_foo f) (or_introl eq_refl) (names_one f)).
  destruct (first_is (named_foo f) x); rewrite (has_top (named_foo f) x I); reflexivity.
Qed.
Lemma service_run f xs : fp_deps f = [] -> Forall (fun x => In x (fp_top f)) xs ->
  forall p a x b, p = [] \/ p = [named_foo f] -> xs = a ++ x :: b ->
  snd (service_type (fold_left (fun p y => fst (service_type p f y)) a p) f x) = Some [named_foo f].
Proof.
  intros D F p a x b P E. assert (Fx : In x (fp_top f)) by (rewrite Forall_forall in F; apply F; rewrite E; apply in_or_app; right; left; reflexivity).
  assert (Fa : Forall (fun y => In y (fp_top f)) a) by (rewrite E in F; apply Forall_app in F; exact (proj1 F)). clear E F.
  revert p P. induction Fa as [|y a Fy Fa IH]; intros p P; cbn [fold_left].
  - destruct P as [->| ->]; [rewrite (service_first f x D Fx)|rewrite (service_next f x Fx)]; reflexivity.
  - apply IH. right. destruct P as [->| ->]; [rewrite (service_first f y D Fy)|rewrite (service_next f y Fy)]; reflexivity.
Qed.
Lemma service_import f x : fp_deps f <> [] -> service_type [] f x = ([], None).
Proof.
  intros D. unfold service_type, get_message. change (pool_type [] x) with (@None mtype). cbv iota. cbn [build_loop].
  replace (build [] (named_foo f)) with (@None pool); [reflexivity|]. unfold build. cbn [pool_file find named_foo fp_deps fp_name].
  destruct (fp_deps f) as [|d ds]; [congruence|]. reflexivity.
Qed.
Lemma text_second f f' x t p y : fp_deps f = [] -> get_from_text [] f x = (p, Some t) -> named_foo f <> named_foo f' ->
  pool_type p y = None -> get_from_text p f' y = (p, None).
Proof.
  intros D H N T. assert (P : p = [named_foo f]).
  { revert H. unfold get_from_text, get_message. change (pool_type [] x) with (@None mtype). cbv iota. cbn [build_loop].
    rewrite (build_new [] (named_foo f)); [|intros []|intros d I; cbn [named_foo fp_deps] in I; rewrite D in I; destruct I|intros g u v []].
    destruct (first_is (named_foo f) x); destruct (existsb _ _); intros H; injection H as <-; reflexivity. }
  subst p. unfold get_from_text, get_message. rewrite T. cbn [build_loop]. unfold build. cbn [pool_file find named_foo fp_name].
  rewrite eqb_refl. change (eqb _ _) with (eqb (named_foo f) (named_foo f')). rewrite (neq_eqb _ _ N). reflexivity.
Qed.

(** Together with the collection of the descriptors. *)
Lemma world_orderly w pr nm m s c : valid w -> contents w pr nm -> m < w_msgs w -> described w m s c -> buildable w s -> orderly (map pr s).
Proof.
  intros V C Hm D B. destruct (FdsProofs.once_lemma w m s c V Hm D) as [N [_ R]].
  assert (L : forall f, In f s -> f < w_files w).
  { intros f I. apply R in I. pose proof (reaches_le w V _ _ (v_file w V m Hm) I) as Q. pose proof (v_file w V m Hm). lia. }
  assert (Sp : forall a f b, map pr s = a ++ f :: b -> exists a' f' b', s = a' ++ f' :: b' /\ a = map pr a' /\ f = pr f').
  { intros a f b E. apply map_eq_app in E as [a' [r [-> [<- E]]]]. destruct r as [|f' b']; [discriminate|]. cbn in E. injection E as <- <-.
    exists a', f', b'. repeat split. }
  split.
  - replace (map fp_name (map pr s)) with (map (fun f => ff_name (w_file w f)) s); [exact N|]. rewrite map_map. apply map_ext_in.
    intros f I. symmetry. exact (c_name _ _ _ C f (L f I)).
  - intros a f b d E I. destruct (Sp a f b E) as [a' [f' [b' [Es [-> ->]]]]].
    assert (Lf : f' < w_files w) by (apply L; rewrite Es; apply in_or_app; right; left; reflexivity).
    rewrite (c_deps _ _ _ C f' Lf) in I. apply in_map_iff in I as [e [<- I]]. pose proof (B a' f' b' Es e I) as K.
    exists (pr e). split; [apply in_map; exact K|]. apply (c_name _ _ _ C e). apply L. rewrite Es. apply in_or_app. left. exact K.
  - intros a f b g x y E I X Y. destruct (Sp a f b E) as [a' [f' [b' [Es [-> ->]]]]]. apply in_map_iff in I as [g' [<- I]].
    assert (Lf : f' < w_files w) by (apply L; rewrite Es; apply in_or_app; right; left; reflexivity).
    assert (Lg : g' < w_files w) by (apply L; rewrite Es; apply in_or_app; left; exact I).
    intros Q. pose proof (c_types _ _ _ C f' g' x y Lf Lg X Y Q) as ->. clear - N Es I. subst s. rewrite map_app in N. cbn [map] in N.
    apply NoDup_remove_2 in N. apply N. apply in_or_app. left. apply in_map_iff. exists g'. split; [reflexivity|exact I].
Qed.
Lemma world_lemma left w pr nm m s c : valid w -> contents w pr nm -> m < w_msgs w -> described w m s c ->
  (forall f, reaches w (fm_file (w_msg w m)) f -> f <> fm_file (w_msg w m) -> substantial w f) ->
  In m (ff_top (w_file w (fm_file (w_msg w m)))) -> simple_name (nm m) ->
  (forall f, In f s -> f <> fm_file (w_msg w m) -> hd_error (fp_top (pr f)) <> Some (nm m)) ->
  answer_after left [] (qualified (pr (fm_file (w_msg w m)), nm m), map pr s) = DMessage (pr (fm_file (w_msg w m)), nm m).
Proof.
  intros V C Hm D Sb It Nm H. destruct (complete_lemma w m s c V Hm D Sb) as [_ [B [s' Es]]].
  pose proof (world_orderly w pr nm m s c V C Hm D B) as O. destruct (FdsProofs.once_lemma w m s c V Hm D) as [N _].
  rewrite Es in *. rewrite map_app in *. cbn [map] in *. apply decodes_lemma.
  - exact O.
  - rewrite (c_top _ _ _ C _ (v_file w V m Hm)). apply in_map. exact It.
  - exact Nm.
  - intros g I. apply in_map_iff in I as [f [<- I]]. apply H; [apply in_or_app; left; exact I|]. intros ->.
    apply NoDup_remove_2 in N. apply N. rewrite app_nil_r. apply in_map_iff. eexists. split; [|exact I]. reflexivity.
Qed.

Lemma plain_contents_ok : contents plain_world plain_contents plain_names.
Proof.
  split; intros f.
  - destruct f as [|[|[|f]]]; cbn [w_files plain_world]; intros H; try reflexivity; lia.
  - destruct f as [|[|[|f]]]; cbn [w_files plain_world]; intros H; try reflexivity; lia.
  - destruct f as [|[|[|f]]]; cbn [w_files plain_world]; intros H; try reflexivity; lia.
  - intros g x y. cbn [w_files plain_world]. intros Hf Hg. destruct f as [|[|[|f]]]; [| | |lia]; (destruct g as [|[|[|g]]]; [| | |lia]);
      cbn; intros X Y; intuition (subst; try reflexivity; try discriminate).
Qed.
Lemma plain_world_case : exists c, described plain_world 2 [0; 1; 2] c /\ simple_name (plain_names 2) /\
  (forall f, In f [0; 1; 2] -> f <> 2 -> hd_error (fp_top (plain_contents f)) <> Some (plain_names 2)) /\
  answer_after true [] (str "C", map plain_contents [0; 1; 2]) = DMessage (plain_contents 2, str "C").
Proof.
  exists 12%Z. split; [exact (proj1 (proj2 plain_case))|]. split; [split; [discriminate|vm_compute; intuition discriminate]|]. split.
  - intros f [<-|[<-|[<-|[]]]] H; cbn; try congruence; discriminate.
  - vm_compute. reflexivity.
Qed.
Lemma orderly_two f g : fp_deps f = [] -> fp_name f <> fp_name g -> (forall d, In d (fp_deps g) -> d = fp_name f) ->
  (forall x y, In x (types_of g) -> In y (types_of f) -> qualified x <> qualified y) -> orderly [f; g].
Proof.
  intros D N Dg T. split.
  - cbn. apply NoDup_cons; [intros [C|[]]; congruence|]. apply NoDup_cons; [intros []|apply NoDup_nil].
  - intros a h b d E I. destruct a as [|x [|z a]]; cbn in E.
    + injection E as <- _. rewrite D in I. destruct I.
    + injection E as <- <- _. exists f. split; [left; reflexivity|]. symmetry. exact (Dg d I).
    + injection E as _ _ E. destruct a; discriminate.
  - intros a h b k x y E I X Y. destruct a as [|z [|z' a]]; cbn in E; [destruct I| |injection E as _ _ E; destruct a; discriminate].
    injection E as <- <- _. destruct I as [<-|[]]. exact (T x y X Y).
Qed.
Lemma pose_orderly : orderly [pose_a; pose_b] /\ orderly [point_a; pose_b].
Proof.
  split; apply orderly_two; try reflexivity; try discriminate; try (intros d [<-|[]]; reflexivity);
    cbn; intros x y X Y; intuition (subst; discriminate).
Qed.
