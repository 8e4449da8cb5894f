(** Proofs about the deserializers of the dynamic subscribers. *)
From Verif Require Import Base Sample DynModel DynSpec DynProofs DjsModel DjsSpec.
Import ListNotations.

(** ** JSON *)
Lemma types_injective f n m : qualified (f, n) = qualified (f, m) -> n = m.
Proof. unfold qualified. cbn [fst snd]. destruct (eqb (fp_package f) []); [easy|]. intros H. apply app_inv_head in H. apply app_inv_head in H. exact H. Qed.
Lemma orderly_unique fs t u : orderly fs -> In (fst t) fs -> In (fst u) fs -> In t (types_of (fst t)) -> In u (types_of (fst u)) ->
  qualified t = qualified u -> t = u.
Proof.
  intros O It Iu Tt Tu E. assert (D : fst t = fst u).
  { apply in_split in It as [a [b F]]. rewrite F in Iu. apply in_app_or in Iu as [Iu|[Iu|Iu]].
    - exfalso. exact (o_types fs O a (fst t) b (fst u) t u F Iu Tt Tu E).
    - exact Iu.
    - apply in_split in Iu as [c [d G]]. exfalso. apply (o_types fs O (a ++ fst t :: c) (fst u) d (fst t) u t); [|apply in_or_app; right; left; reflexivity|exact Tu|exact Tt|symmetry; exact E].
      rewrite F, G, <- app_assoc. reflexivity. }
  destruct t as [f n], u as [g m]. cbn [fst] in D. subst g. f_equal. exact (types_injective f n m E).
Qed.
Lemma pool_finds fs p t : orderly fs -> incl p fs -> In (fst t) p -> In t (types_of (fst t)) -> pool_type p (qualified t) = Some t.
Proof.
  intros O I P T. destruct (pool_type p (qualified t)) as [u|] eqn:E.
  - apply pool_type_some in E as [E1 [E2 E3]]. f_equal. apply (orderly_unique fs); auto.
  - exfalso. exact (proj1 (pool_type_none p (qualified t)) E (fst t) t P T eq_refl).
Qed.

(** The first file that begins with a type. *)
Lemma first_or_none n fs : (exists a g r, fs = a ++ [g] ++ r /\ hd_error (fp_top g) = Some n /\ forall h, In h a -> hd_error (fp_top h) <> Some n) \/
  (forall h, In h fs -> hd_error (fp_top h) <> Some n).
Proof.
  induction fs as [|f fs IH]; [right; intros h []|]. destruct (eqb (hd_error (fp_top f)) (Some n)) eqn:E.
  - left. exists [], f, fs. split; [reflexivity|]. split; [exact (eqb_true _ _ E)|intros h []].
  - apply eqb_false in E. destruct IH as [[a [g [r [F [G H]]]]]|H].
    + left. exists (f :: a), g, r. split; [rewrite F; reflexivity|]. split; [exact G|]. intros h [<-|I]; auto.
    + right. intros h [<-|I]; auto.
Qed.
Lemma all_pool fs n : fs <> [] -> orderly fs -> (forall h, In h fs -> hd_error (fp_top h) <> Some n) -> fst (get_message [] fs n) = fs.
Proof.
  intros F O H. destruct (exists_last F) as [l [f ->]]. unfold get_message. change (pool_type [] n) with (@None mtype). cbv iota.
  rewrite (loop_orderly l [] n None f O ltac:(intros g I; apply H, in_or_app; left; exact I)). cbn [app]. destruct (existsb _ _); reflexivity.
Qed.
Lemma reached a g r n : orderly (a ++ g :: r) -> (forall h, In h a -> hd_error (fp_top h) <> Some n) ->
  incl (fst (get_message [] (a ++ g :: r) n)) (a ++ g :: r) /\ In g (fst (get_message [] (a ++ g :: r) n)).
Proof.
  intros O H. destruct (eqb (hd_error (fp_top g)) (Some n)) eqn:E.
  - apply eqb_true in E. change (a ++ g :: r) with (a ++ [g] ++ r). rewrite (first_lemma a g r n O E H). cbn [fst]. split.
    + rewrite app_assoc. apply incl_appl, incl_refl.
    + apply in_or_app. right. left. reflexivity.
  - apply eqb_false in E. destruct (first_or_none n r) as [[b [k [c [F [K B]]]]]|R].
    + subst r. replace (a ++ g :: b ++ [k] ++ c) with ((a ++ g :: b) ++ [k] ++ c) in O |- * by (rewrite <- app_assoc; reflexivity).
      rewrite (first_lemma (a ++ g :: b) k c n O K).
      2: { intros h I. apply in_app_or in I as [I|[<-|I]]; auto. }
      cbn [fst]. split; [rewrite app_assoc; apply incl_appl, incl_refl|]. apply in_or_app. left. apply in_or_app. right. left. reflexivity.
    + rewrite (all_pool (a ++ g :: r) n ltac:(destruct a; discriminate) O).
      2: { intros h I. apply in_app_or in I as [I|[<-|I]]; auto. }
      split; [apply incl_refl|apply in_or_app; right; left; reflexivity].
Qed.
Lemma not_reached a h b g n : orderly (a ++ [h] ++ b) -> hd_error (fp_top h) = Some n -> (forall k, In k a -> hd_error (fp_top k) <> Some n) -> In g b ->
  ~ In g (fst (get_message [] (a ++ [h] ++ b) n)).
Proof.
  intros O E H I. rewrite (first_lemma a h b n O E H). cbn [fst]. intros C. pose proof (o_names _ O) as N.
  rewrite app_assoc, map_app in N. assert (C1 : In (fp_name g) (map fp_name (a ++ [h]))) by (apply in_map; exact C).
  assert (C2 : In (fp_name g) (map fp_name b)) by (apply in_map; exact I). revert N C1 C2. generalize (map fp_name (a ++ [h])) (map fp_name b) (fp_name g).
  clear. intros l m x N. induction l as [|y l IH]; [intros []|]. cbn in N. inversion N as [|? ? N1 N2]; subst. intros [->|C1] C2; [|exact (IH N2 C1 C2)].
  apply N1, in_or_app. right. exact C2.
Qed.

Lemma short_ends x n : ends_in x n -> short_name x = n /\ empty_or_null n = false.
Proof.
  intros [[N1 N2] [[c [I C]] [->|[q ->]]]].
  - split; [exact (short_none n N2)|]. destruct (empty_or_null n) eqn:E; [|reflexivity]. unfold empty_or_null in E. rewrite forallb_forall in E.
    specialize (E c I). apply Z.eqb_eq in E. congruence.
  - split; [exact (short_dot q n N2)|]. destruct (empty_or_null n) eqn:E; [|reflexivity]. unfold empty_or_null in E. rewrite forallb_forall in E.
    specialize (E c I). apply Z.eqb_eq in E. congruence.
Qed.
Lemma json_fresh json x n fs b : ends_in x n -> fs <> [] ->
  json_after json [] (x, fs) b = match pool_type (fst (get_message [] fs n)) x with
                                 | Some t => match json t b with Some y => OMessage (t, y) | None => OOther end
                                 | None => OOther
                                 end.
Proof.
  intros N F. apply short_ends in N as [N1 N2]. unfold json_after, json_run, json_deserialize, get_resolver, create_resolver.
  cbn [fold_left jser_init js_known js_pool existsb fst snd]. rewrite N1, N2. destruct fs; [congruence|]. reflexivity.
Qed.
Lemma json_right json a g r t n b : orderly (a ++ g :: r) -> In t (types_of g) -> ends_in (qualified t) n ->
  (forall h, In h a -> hd_error (fp_top h) <> Some n) ->
  json_after json [] (qualified t, a ++ g :: r) b = match json t b with Some y => OMessage (t, y) | None => OOther end.
Proof.
  intros O T N H. rewrite (json_fresh json (qualified t) n _ b N) by (destruct a; discriminate).
  destruct (reached a g r n O H) as [R1 R2]. pose proof (types_in _ _ T) as E. rewrite (pool_finds (a ++ g :: r) _ t O R1).
  - reflexivity.
  - rewrite E. exact R2.
  - rewrite E. exact T.
Qed.
Lemma json_wrong json a h b' g t n b : orderly (a ++ [h] ++ b') -> In g b' -> In t (types_of g) -> ends_in (qualified t) n ->
  hd_error (fp_top h) = Some n -> (forall k, In k a -> hd_error (fp_top k) <> Some n) ->
  json_after json [] (qualified t, a ++ [h] ++ b') b = OOther.
Proof.
  intros O I T N E H. rewrite (json_fresh json (qualified t) n _ b N) by (destruct a; discriminate).
  destruct (pool_type (fst (get_message [] (a ++ [h] ++ b') n)) (qualified t)) as [u|] eqn:P; [|reflexivity]. exfalso.
  apply pool_type_some in P as [P1 [P2 P3]].
  assert (In (fst u) (a ++ [h])) as P4 by (rewrite (first_lemma a h b' n O E H) in P1; exact P1).
  pose proof (types_in _ _ T) as Et. assert (u = t).
  { apply (orderly_unique (a ++ [h] ++ b') u t O); [rewrite app_assoc; apply in_or_app; left; exact P4| |exact P2|rewrite Et; exact T|exact P3].
    rewrite Et. apply in_or_app. right. right. exact I. }
  subst u. rewrite Et in P1. exact (not_reached a h b' g n O E H I P1).
Qed.

(** Pools grow at the end. *)
Lemma build_grows p f p' : build p f = Some p' -> exists q, p' = p ++ q.
Proof. intros H. apply build_some in H as [[-> _]|[-> _]]; [exists []; symmetry; apply app_nil_r|eexists; reflexivity]. Qed.
Lemma loop_grows fs : forall p n l, exists q, fst (build_loop p n l fs) = p ++ q.
Proof.
  induction fs as [|f fs IH]; intros p n l; cbn [build_loop]; [exists []; symmetry; apply app_nil_r|].
  destruct (build p f) as [p'|] eqn:B; [|exists []; symmetry; apply app_nil_r]. apply build_grows in B as [q ->].
  destruct (first_is f n); [exists q; reflexivity|]. destruct (IH (p ++ q) n (Some f)) as [q' ->]. exists (q ++ q'). symmetry. apply app_assoc.
Qed.
Lemma get_grows p fs n : exists q, fst (get_message p fs n) = p ++ q.
Proof.
  unfold get_message. destruct (pool_type p n); [exists []; symmetry; apply app_nil_r|]. destruct (loop_grows fs p n None) as [q Q].
  destruct (build_loop p n None fs) as [p' [f|]]; cbn [fst] in Q; [destruct (existsb _ _)|]; exists q; exact Q.
Qed.
Lemma type_grows p q x t : pool_type p x = Some t -> pool_type (p ++ q) x = Some t.
Proof.
  unfold pool_type. rewrite flat_map_app. generalize (flat_map types_of p) (flat_map types_of q). intros l m. induction l as [|u l IH]; cbn; [discriminate|].
  destruct (called_so x u); [easy|exact IH].
Qed.
Lemma resolver_grows s i s' : get_resolver s i = Some s' -> exists q, js_pool s' = js_pool s ++ q.
Proof.
  unfold get_resolver. destruct (existsb (eqb i) (js_known s)); [intros H; injection H as <-; exists []; symmetry; apply app_nil_r|].
  unfold create_resolver. destruct (empty_or_null _); [discriminate|]. destruct (snd i) as [|f fs]; [discriminate|]. intros H. injection H as <-. apply get_grows.
Qed.
Lemma json_grows json s i b : exists q, js_pool (fst (json_deserialize json s i b)) = js_pool s ++ q.
Proof.
  unfold json_deserialize. destruct (get_resolver s i) as [s'|] eqn:G; [exact (resolver_grows _ _ _ G)|exists []; symmetry; apply app_nil_r].
Qed.
Lemma json_run_snoc json hs h : json_run json (hs ++ [h]) = fst (json_deserialize json (json_run json hs) (fst h) (snd h)).
Proof. unfold json_run. rewrite fold_left_app. reflexivity. Qed.
Lemma json_run_grows json hs ks : exists q, js_pool (json_run json (hs ++ ks)) = js_pool (json_run json hs) ++ q.
Proof.
  induction ks as [|k ks [q IH]] using rev_ind; [exists []; rewrite !app_nil_r; reflexivity|]. rewrite app_assoc, json_run_snoc.
  destruct (json_grows json (json_run json (hs ++ ks)) (fst k) (snd k)) as [q' ->]. rewrite IH. exists (q ++ q'). symmetry. apply app_assoc.
Qed.
Lemma json_message json s i b t y : snd (json_deserialize json s i b) = OMessage (t, y) ->
  pool_type (js_pool (fst (json_deserialize json s i b))) (fst i) = Some t /\ json t b = Some y.
Proof.
  unfold json_deserialize. destruct (get_resolver s i) as [s'|]; [|discriminate]. cbn [fst snd]. destruct (pool_type (js_pool s') (fst i)) as [u|]; [|discriminate].
  destruct (json u b) as [z|] eqn:J; [|discriminate]. intros H. injection H as <- <-. auto.
Qed.
Lemma json_stays json hs i b t y ks : json_after json hs i b = OMessage (t, y) ->
  pool_type (js_pool (json_run json (hs ++ (i, b) :: ks))) (fst i) = Some t.
Proof.
  intros H. apply json_message in H as [H _]. replace (hs ++ (i, b) :: ks) with ((hs ++ [(i, b)]) ++ ks) by (rewrite <- app_assoc; reflexivity).
  destruct (json_run_grows json (hs ++ [(i, b)]) ks) as [q ->]. apply type_grows. rewrite json_run_snoc. exact H.
Qed.
Lemma known_snoc json s i b j : In j (js_known s) -> In j (js_known (fst (json_deserialize json s i b))).
Proof.
  unfold json_deserialize, get_resolver. destruct (existsb (eqb i) (js_known s)); [auto|]. destruct (create_resolver (js_pool s) i); cbn [fst js_known]; [|auto].
  intros H. apply in_or_app. auto.
Qed.
Lemma known_now json s i b : snd (json_deserialize json s i b) <> OReflection -> In i (js_known (fst (json_deserialize json s i b))).
Proof.
  unfold json_deserialize, get_resolver. destruct (existsb (eqb i) (js_known s)) eqn:E.
  - intros _. apply existsb_exists in E as [j [I E]]. apply eqb_true in E. subst j. exact I.
  - destruct (create_resolver (js_pool s) i); cbn [fst snd js_known]; [|congruence]. intros _. apply in_or_app. right. left. reflexivity.
Qed.
Lemma known_stays json hs i b ks : json_after json hs i b <> OReflection -> In i (js_known (json_run json (hs ++ (i, b) :: ks))).
Proof.
  intros H. replace (hs ++ (i, b) :: ks) with ((hs ++ [(i, b)]) ++ ks) by (rewrite <- app_assoc; reflexivity).
  induction ks as [|k ks IH] using rev_ind.
  - rewrite app_nil_r, json_run_snoc. exact (known_now json _ i b H).
  - rewrite app_assoc, json_run_snoc. apply known_snoc. exact IH.
Qed.
Lemma in_existsb {A} `{EqDec A} (x : A) l : In x l -> existsb (eqb x) l = true.
Proof. intros I. apply existsb_exists. exists x. split; [exact I|apply eqb_refl]. Qed.
Lemma json_stable json hs i b t y ks b' : json_after json hs i b = OMessage (t, y) ->
  json_after json (hs ++ (i, b) :: ks) i b' = match json t b' with Some z => OMessage (t, z) | None => OOther end.
Proof.
  intros H. pose proof (json_stays json hs i b t y ks H) as P. assert (K : In i (js_known (json_run json (hs ++ (i, b) :: ks)))) by (apply known_stays; rewrite H; discriminate).
  unfold json_after, json_deserialize, get_resolver. rewrite (in_existsb _ _ K), P. reflexivity.
Qed.
Lemma json_changed json hs i b t y ks j b' u z : json_after json hs i b = OMessage (t, y) ->
  json_after json (hs ++ (i, b) :: ks) j b' = OMessage (u, z) -> fst j = fst i -> u = t.
Proof.
  intros H K E. pose proof (json_stays json hs i b t y (ks ++ [(j, b')]) H) as P.
  replace (hs ++ (i, b) :: ks ++ [(j, b')]) with ((hs ++ (i, b) :: ks) ++ [(j, b')]) in P by (rewrite <- app_assoc; reflexivity).
  rewrite json_run_snoc in P. cbn [fst snd] in P. apply json_message in K as [K _]. rewrite E in K. rewrite K in P. injection P as ->. reflexivity.
Qed.

Lemma short_shape s : ~ In 46%Z (short_name s) /\ (s = short_name s \/ exists q, s = q ++ [46%Z] ++ short_name s).
Proof.
  induction s as [|c s [IH1 IH2]]; [split; [intros []|left; reflexivity]|]. cbn [short_name]. destruct (existsb (Z.eqb 46) (c :: s)) eqn:E.
  - split; [exact IH1|]. right. destruct IH2 as [IH2|[q IH2]].
    + apply existsb_dot in E. destruct E as [->|E]; [exists []; rewrite <- IH2; reflexivity|]. rewrite IH2 in E. contradiction.
    + exists (c :: q). rewrite IH2 at 1. reflexivity.
  - split; [|left; reflexivity]. intros C. apply existsb_dot in C. congruence.
Qed.
Lemma zeros s : empty_or_null s = true <-> forall c, In c s -> c = 0%Z.
Proof.
  unfold empty_or_null. rewrite forallb_forall. split; intros H c I; specialize (H c I); [apply Z.eqb_eq in H; congruence|subst; reflexivity].
Qed.
Lemma vacuous_spec i : vacuous i <-> empty_or_null (short_name (fst i)) = true \/ snd i = [].
Proof.
  unfold vacuous. split.
  - intros [H|[H|[[q H]|[z [N [H [E|[q E]]]]]]]].
    + right. exact H.
    + left. rewrite H. reflexivity.
    + left. rewrite H. rewrite (short_dot q [] ltac:(intros [])). reflexivity.
    + left. rewrite E. rewrite short_none; [apply zeros; exact H|]. intros C. apply H in C. discriminate.
    + left. rewrite E. cbn [app]. rewrite short_dot; [apply zeros; exact H|]. intros C. apply H in C. discriminate.
  - intros [H|H]; [|left; exact H]. right. destruct (short_shape (fst i)) as [_ [E|[q E]]].
    + destruct (short_name (fst i)) as [|c z] eqn:S; [left; exact E|]. right. right. exists (c :: z). split; [discriminate|].
      split; [apply zeros; exact H|left; exact E].
    + destruct (short_name (fst i)) as [|c z] eqn:S; [right; left; exists q; exact E|]. right. right. exists (c :: z). split; [discriminate|].
      split; [apply zeros; exact H|right; exists q; exact E].
Qed.
Lemma known_good json hs i : In i (js_known (json_run json hs)) -> ~ vacuous i.
Proof.
  induction hs as [|h hs IH] using rev_ind; [intros []|]. rewrite json_run_snoc. unfold json_deserialize, get_resolver.
  destruct (existsb _ _); [exact IH|]. destruct (create_resolver _ (fst h)) as [p|] eqn:C; [|exact IH]. cbn [fst js_known]. intros I.
  apply in_app_or in I as [I|[<-|[]]]; [exact (IH I)|]. rewrite vacuous_spec. unfold create_resolver in C. destruct (empty_or_null _); [discriminate|].
  destruct (snd (fst h)); [discriminate|]. intros [?|?]; discriminate.
Qed.
Lemma json_reflection json hs i b : json_after json hs i b = OReflection <-> vacuous i.
Proof.
  unfold json_after, json_deserialize, get_resolver. split.
  - destruct (existsb _ _); [cbn [snd]; destruct (pool_type _ _) as [t|]; [destruct (json t b)|]; discriminate|].
    unfold create_resolver. rewrite vacuous_spec. destruct (empty_or_null _); [auto|]. destruct (snd i); [auto|]. cbn [snd].
    destruct (pool_type _ _) as [t|]; [destruct (json t b)|]; discriminate.
  - intros V. destruct (existsb (eqb i) (js_known (json_run json hs))) eqn:E.
    + apply existsb_exists in E as [j [I E]]. apply eqb_true in E. subst j. exfalso. exact (known_good json hs i I V).
    + apply vacuous_spec in V. unfold create_resolver. destruct V as [->| ->]; [reflexivity|]. destruct (empty_or_null _); reflexivity.
Qed.
Lemma json_vacuous_forgotten json hs i b : vacuous i -> fst (json_deserialize json (json_run json hs) i b) = json_run json hs.
Proof.
  intros V. pose proof (proj2 (json_reflection json hs i b) V) as H. unfold json_after, json_deserialize in *.
  destruct (get_resolver _ i) as [s|]; [|reflexivity]. cbn [snd] in H. destruct (pool_type _ _) as [t|]; [destruct (json t b)|]; discriminate.
Qed.
Lemma json_found json hs i b : (forall t, json t b = None) -> ~ vacuous i -> json_after json hs i b = OOther.
Proof.
  intros J V. destruct (json_after json hs i b) as [[t y]| |] eqn:E; [|apply json_reflection in E; contradiction|reflexivity].
  apply json_message in E as [_ E]. rewrite J in E. discriminate.
Qed.

(** ** Protobuf messages *)
Definition no_null (s : deser) : Prop := forall j, aget j (de_map s) <> Some None.
Lemma no_null_step s i : no_null s -> no_null (fst (deserialize false s i)) /\ snd (deserialize false s i) <> DCrash.
Proof.
  intros N. unfold deserialize. destruct (aget i (de_map s)) as [[t|]|] eqn:G.
  - split; [exact N|discriminate].
  - exfalso. exact (N i G).
  - destruct (create_message _ i) as [p [t|]]; cbn [fst snd]; (split; [|discriminate]).
    + intros j. cbn [de_map]. rewrite aget_aset. destruct (eqb j i); [discriminate|apply N].
    + intros j. cbn [de_map]. apply N.
Qed.
Lemma proto_step parse s i b : fst (proto_deserialize parse s i b) = fst (deserialize false s i).
Proof. unfold proto_deserialize. destruct (deserialize false s i) as [s' [t| |]]; reflexivity. Qed.
Lemma proto_safe parse s i b : no_null s -> no_null (fst (proto_deserialize parse s i b)) /\ snd (proto_deserialize parse s i b) <> OOther.
Proof.
  intros N. rewrite proto_step. destruct (no_null_step s i N) as [N1 N2]. split; [exact N1|]. unfold proto_deserialize.
  destruct (deserialize false s i) as [s' [t| |]]; cbn [snd] in *; [discriminate|discriminate|congruence].
Qed.
Lemma proto_run parse hs : fold_left (fun s h => fst (proto_deserialize parse s (fst h) (snd h))) hs deser_init = deser_run false (map fst hs).
Proof.
  induction hs as [|h hs IH] using rev_ind; [reflexivity|]. rewrite fold_left_app, map_app. cbn [fold_left map]. rewrite IH, run_snoc. apply proto_step.
Qed.
Lemma no_null_run is : no_null (deser_run false is).
Proof. induction is as [|i is IH] using rev_ind; [discriminate|]. rewrite run_snoc. exact (proj1 (no_null_step _ i IH)). Qed.
Lemma proto_answer parse hs i b : proto_after parse hs i b =
  match answer_after false (map fst hs) i with DMessage t => OMessage (t, fst (parse t b)) | _ => OReflection end.
Proof.
  unfold proto_after, answer_after. rewrite proto_run. unfold proto_deserialize. pose proof (proj2 (no_null_step _ i (no_null_run (map fst hs)))) as C.
  destruct (deserialize false (deser_run false (map fst hs)) i) as [s [t| |]]; cbn [snd] in *; [reflexivity|reflexivity|congruence].
Qed.

(** ** Cap'n Proto *)
Section Capnp.
  Variable so : text -> option (Z * list cnode).
  Variable up : cnode -> cnode -> option cnode.
  Variable wo : list Z -> option Z.
  Let step := capnp_deserialize so up wo.
  Let run := capnp_run so up wo.
  Lemma capnp_snoc hs h : run (hs ++ [h]) = fst (step (run hs) (fst h) (snd h)).
  Proof. unfold run, capnp_run. rewrite fold_left_app. reflexivity. Qed.
  Lemma capnp_keys s i b j : In j (keys (cs_map (fst (step s i b)))) <-> (j = i /\ wo b <> None) \/ In j (keys (cs_map s)).
  Proof.
    unfold step, capnp_deserialize. destruct (wo b) as [w|]; [|cbn; intuition congruence]. unfold get_schema. cbn [cs_map cs_words cs_loader].
    destruct (aget i (cs_map s)) as [o|] eqn:G.
    - apply aget_in_keys in G. destruct (schema_from so up (cs_loader s) (snd i)) as [l [n|]]; cbn [fst cs_map].
      + rewrite keys_aset_incl. intuition congruence.
      + intuition congruence.
    - cbn [fst cs_map]. rewrite keys_aset_incl. intuition congruence.
  Qed.
  Lemma capnp_seen hs j : In j (keys (cs_map (run hs))) <-> exists b, In (j, b) hs /\ wo b <> None.
  Proof.
    induction hs as [|[i b] hs IH] using rev_ind; [cbn; split; [intros []|intros [b [[] _]]]|]. rewrite capnp_snoc, capnp_keys, IH. cbn [fst snd]. split.
    - intros [[-> H]|[b' [H1 H2]]]; [exists b|exists b']; (split; [apply in_or_app|assumption]); [right; left; reflexivity|left; exact H1].
    - intros [b' [H1 H2]]. apply in_app_or in H1 as [H1|[H1|[]]]; [right; exists b'; auto|injection H1 as <- <-; auto].
  Qed.
  Lemma capnp_unseen s i b : ~ In i (keys (cs_map s)) -> snd (step s i b) = OOther.
  Proof.
    intros H. unfold step, capnp_deserialize. destruct (wo b) as [w|]; [|reflexivity]. unfold get_schema. cbn [cs_map].
    rewrite (proj2 (aget_none i (cs_map s)) H). reflexivity.
  Qed.
  Lemma capnp_first hs i b : (forall b', In (i, b') hs -> wo b' = None) -> capnp_after so up wo hs i b = OOther.
  Proof. intros H. apply capnp_unseen. intros C. apply capnp_seen in C as [b' [C1 C2]]. exact (C2 (H b' C1)). Qed.
  Lemma capnp_words hs : cs_words (run hs) = total wo (map snd hs).
  Proof.
    assert (S : forall s i b, cs_words (fst (step s i b)) = (cs_words s + match wo b with Some w => w | None => 0 end)%Z).
    { intros s i b. unfold step, capnp_deserialize. destruct (wo b) as [w|]; [|cbn; lia]. unfold get_schema. cbn [cs_map cs_words cs_loader].
      destruct (aget i (cs_map s)); [|reflexivity]. destruct (schema_from so up (cs_loader s) (snd i)) as [l [n|]]; reflexivity. }
    assert (T : forall a b, total wo (a ++ b) = (total wo a + total wo b)%Z).
    { unfold total. induction a as [|x a IH]; intros b; [reflexivity|]. cbn [app map fold_right]. rewrite IH. lia. }
    induction hs as [|h hs IH] using rev_ind; [reflexivity|]. rewrite capnp_snoc, S, IH, map_app, T. unfold total at 3. cbn [map fold_right]. lia.
  Qed.

  (** One descriptor only. *)
  Definition agreeing (ns : list cnode) : Prop := forall n m, In n ns -> In m ns -> cn_id n = cn_id m -> n = m.
  Definition partly (l : list (Z * cnode)) (ns : list cnode) : Prop := forall k m, aget k l = Some m -> In m ns /\ cn_id m = k.
  Lemma load_agreeing ns l n : agreeing ns -> partly l ns -> In n ns ->
    exists l', load up l n = (l', true) /\ partly l' ns /\ aget (cn_id n) l' = Some n /\ (forall k m, aget k l = Some m -> aget k l' = Some m).
  Proof.
    intros A P I. unfold load. destruct (aget (cn_id n) l) as [m|] eqn:G.
    - assert (m = n) as ->. { destruct (P _ _ G) as [P1 P2]. apply A; auto. } rewrite eqb_refl. exists l. auto.
    - exists (aset (cn_id n) n l). split; [reflexivity|]. split; [|split; [apply aget_aset_same|]].
      + intros k m. rewrite aget_aset. destruct (eqb k (cn_id n)) eqn:E; [|apply P]. intros H. injection H as <-. apply eqb_true in E. auto.
      + intros k m H. rewrite aget_aset. destruct (eqb k (cn_id n)) eqn:E; [|exact H]. apply eqb_true in E. congruence.
  Qed.
  Lemma load_all_agreeing ns ms : agreeing ns -> incl ms ns -> forall l, partly l ns ->
    exists l', load_all up l ms = (l', true) /\ partly l' ns /\ (forall n, In n ms -> aget (cn_id n) l' = Some n) /\ (forall k m, aget k l = Some m -> aget k l' = Some m).
  Proof.
    intros A. induction ms as [|m ms IH]; intros S l P; [exists l; cbn; split; [reflexivity|split; [exact P|split; [intros n []|auto]]]|].
    destruct (load_agreeing ns l m A P (S m (or_introl eq_refl))) as [l1 [L1 [P1 [G1 K1]]]].
    destruct (IH ltac:(intros x I; apply S; right; exact I) l1 P1) as [l2 [L2 [P2 [G2 K2]]]]. exists l2. cbn [load_all]. rewrite L1. split; [exact L2|].
    split; [exact P2|]. split; [|auto]. intros n [<-|I]; auto.
  Qed.
  Lemma loader_partly (i : cinfo) ns id (hs : list (cinfo * list Z)) : so (snd i) = Some (id, ns) -> agreeing ns -> (forall h, In h hs -> fst h = i) -> partly (cs_loader (run hs)) ns.
  Proof.
    intros D A. induction hs as [|h hs IH] using rev_ind; intros H; [intros k m E; discriminate|]. rewrite capnp_snoc.
    specialize (IH ltac:(intros x I; apply H, in_or_app; left; exact I)). rewrite (H h) by (apply in_or_app; right; left; reflexivity).
    unfold step, capnp_deserialize. destruct (wo (snd h)) as [w|]; [|exact IH]. unfold get_schema. cbn [cs_map cs_loader cs_words].
    destruct (aget i (cs_map (run hs))); [|exact IH]. unfold schema_from. rewrite D.
    destruct (load_all_agreeing ns ns A (incl_refl ns) _ IH) as [l' [L [P _]]]. rewrite L. destruct (aget id l'); exact P.
  Qed.
  Lemma capnp_later (hs : list (cinfo * list Z)) (i : cinfo) b ns n : (forall h, In h hs -> fst h = i) -> (exists b', In (i, b') hs /\ wo b' <> None) ->
    so (snd i) = Some (cn_id n, ns) -> agreeing ns -> In n ns -> cn_struct n = true -> wo b <> None ->
    capnp_after so up wo hs i b = OMessage (n, b).
  Proof.
    intros H X D A I S W. pose proof (loader_partly i ns (cn_id n) hs D A H) as P. apply capnp_seen in X. unfold capnp_after, capnp_deserialize.
    destruct (wo b) as [w|]; [|congruence]. unfold get_schema. cbn [cs_map cs_loader cs_words]. change (capnp_run so up wo hs) with (run hs).
    destruct (aget i (cs_map (run hs))) as [o|] eqn:G; [|apply aget_none in G; contradiction]. unfold schema_from. rewrite D.
    destruct (load_all_agreeing ns ns A (incl_refl ns) _ P) as [l' [L [P' [Q _]]]]. rewrite L, (Q n I). cbn [snd]. rewrite S. reflexivity.
  Qed.
End Capnp.

(** ** The subscriber *)
Section Subscriber.
  Variables (D I M : Type) (start : D) (des : D -> I -> list Z -> D * dout M).
  Let step := d_step D I M des.
  Let run := d_run D I M des.
  Lemma d_run_app l : forall s m, run s (l ++ m) = (fst (run (fst (run s l)) m), snd (run s l) ++ snd (run (fst (run s l)) m)).
  Proof.
    induction l as [|a l IH]; intros s m; [cbn [app run d_run fst snd]; destruct (run s m); reflexivity|].
    cbn [app]. unfold run in *. cbn [d_run]. destruct (d_step D I M des s a) as [s1 o]. rewrite IH. destruct (d_run D I M des s1 l) as [s2 o2]. cbn [fst snd].
    rewrite app_assoc. reflexivity.
  Qed.
  Lemma d_run_snoc s l a : run s (l ++ [a]) = (fst (step (fst (run s l)) a), snd (run s l) ++ snd (step (fst (run s l)) a)).
  Proof.
    rewrite d_run_app. assert (E : forall x, run x [a] = step x a).
    { intros x. unfold run, step. cbn [d_run]. destruct (d_step D I M des x a) as [s1 o]. rewrite app_nil_r. reflexivity. }
    rewrite E. reflexivity.
  Qed.
  Lemma with_info_des s k : ds_des (with_info D I s k) = ds_des s.
  Proof. unfold with_info. destruct (ds_info s); reflexivity. Qed.
  Lemma with_info_alive s k : ds_alive (with_info D I s k) = ds_alive s.
  Proof. unfold with_info. destruct (ds_info s); reflexivity. Qed.
  Lemma with_info_err s k : ds_err (with_info D I s k) = ds_err s.
  Proof. unfold with_info. destruct (ds_info s); reflexivity. Qed.
  Lemma with_info_cb s k : ds_cb (with_info D I s k) = ds_cb s.
  Proof. unfold with_info. destruct (ds_info s); reflexivity. Qed.

  (** A deserializer that never gives another exception. *)
  Variable P : D -> Prop.
  Hypothesis P0 : P start.
  Hypothesis Pstep : forall d i b, P d -> P (fst (des d i b)) /\ snd (des d i b) <> OOther.
  Lemma safe_step s a : P (ds_des s) -> well_behaved a = true ->
    P (ds_des (fst (step s a))) /\ ds_alive (fst (step s a)) = ds_alive s /\ ~ In STerminated (snd (step s a)) /\ ~ In SThrown (snd (step s a)).
  Proof.
    intros H W. unfold step, d_step. destruct (ds_alive s) eqn:L; [|cbn; auto].
    destruct a as [b k e|b k|on|on]; cbn [fst snd]; [| |cbn; auto|cbn; auto].
    - unfold on_message. destruct (negb (ds_cb s)); [cbn; auto|]. destruct (ds_info (with_info D I s k)) as [i|].
      + pose proof (Pstep (ds_des (with_info D I s k)) i b ltac:(rewrite with_info_des; exact H)) as [Q1 Q2].
        destruct (des (ds_des (with_info D I s k)) i b) as [d [m| |]]; cbn [fst snd] in *.
        * destruct e; [| |discriminate]; cbn [fst snd ds_des ds_alive with_des]; rewrite with_info_alive, L; (split; [exact Q1|]); (split; [reflexivity|]).
          -- split; intros [C|[]]; discriminate.
          -- unfold complains. cbn [ds_err with_des]. rewrite with_info_err. destruct (ds_err s); split; intros [C|C]; try discriminate; destruct C as [C|[]] || destruct C; discriminate.
        * cbn [fst snd ds_des ds_alive with_des]. rewrite with_info_alive, L. split; [exact Q1|]. split; [reflexivity|]. unfold complains. cbn [ds_err with_des]. rewrite with_info_err.
          destruct (ds_err s); split; intros C; try destruct C as [C|[]]; try discriminate; destruct C.
        * congruence.
      + cbn [fst snd]. rewrite with_info_des, with_info_alive, L. split; [exact H|]. split; [reflexivity|]. unfold complains. rewrite with_info_err.
        destruct (ds_err s); split; intros C; try destruct C as [C|[]]; try discriminate; destruct C.
    - unfold on_receive. destruct b as [b|]; [|cbn; rewrite L; split; [exact H|]; split; [reflexivity|]; split; intros [C|[]]; discriminate].
      destruct (ds_info (with_info D I s k)) as [i|].
      + pose proof (Pstep (ds_des (with_info D I s k)) i b ltac:(rewrite with_info_des; exact H)) as [Q1 Q2].
        destruct (des (ds_des (with_info D I s k)) i b) as [d [m| |]]; cbn [fst snd ds_des ds_alive with_des] in *;
          [| |congruence]; rewrite with_info_alive, L; (split; [exact Q1|]); (split; [reflexivity|]); split; intros [C|[]]; discriminate.
      + cbn [fst snd]. rewrite with_info_des, with_info_alive, L. split; [exact H|]. split; [reflexivity|]. split; intros [C|[]]; discriminate.
  Qed.
  Lemma safe_run l : forallb well_behaved l = true ->
    P (ds_des (fst (run (dsub_init D I start) l))) /\ ds_alive (fst (run (dsub_init D I start) l)) = true /\
    ~ In STerminated (snd (run (dsub_init D I start) l)) /\ ~ In SThrown (snd (run (dsub_init D I start) l)).
  Proof.
    induction l as [|a l IH] using rev_ind; intros W; [cbn; auto|]. rewrite forallb_app in W. apply andb_true_iff in W as [W1 W2]. cbn [forallb] in W2. rewrite andb_true_r in W2.
    destruct (IH W1) as [I1 [I2 [I3 I4]]]. rewrite d_run_snoc. cbn [fst snd]. destruct (safe_step _ a I1 W2) as [S1 [S2 [S3 S4]]].
    split; [exact S1|]. split; [rewrite S2; exact I2|]. split; intros C; apply in_app_or in C as [C|C]; auto.
  Qed.
End Subscriber.

Section Accounts.
  Variables (D I M : Type) (start : D) (des : D -> I -> list Z -> D * dout M).
  Let step := d_step D I M des.
  Let run := d_run D I M des.
  Definition said_count (o : list (dsaid M)) : nat := length (filter reported o).
  Lemma account_step s a : ds_err s = true -> returning a = true -> silences a = false -> ds_alive (fst (step s a)) = true ->
    ds_err (fst (step s a)) = true /\
    said_count (snd (step s a)) = handled (ds_cb s) [a] /\ ds_cb (fst (step s a)) = match a with ACallback b => b | _ => ds_cb s end.
  Proof.
    intros E R Q. unfold step, d_step. destruct (ds_alive s) eqn:L; [|cbn; congruence].
    destruct a as [b k e|b k|on|on]; cbn [fst snd].
    - unfold on_message. destruct (ds_cb s) eqn:C; cbn [negb]; [|cbn [fst snd handled]; rewrite C; auto].
      destruct e; try discriminate. destruct (ds_info (with_info D I s k)) as [i|].
      + destruct (des (ds_des (with_info D I s k)) i b) as [d [m| |]]; cbn [fst snd with_des ds_err ds_cb ds_alive dead]; rewrite ?with_info_err, ?with_info_cb; auto.
        all: try discriminate. intros _. rewrite E. unfold complains. cbn [ds_err with_des]. rewrite with_info_err, E. auto.
      + cbn [fst snd]. intros _. rewrite with_info_err, with_info_cb. unfold complains. rewrite with_info_err, E. auto.
    - unfold on_receive. destruct b as [b|]; [|cbn; auto]. destruct (ds_info (with_info D I s k)) as [i|].
      + destruct (des (ds_des (with_info D I s k)) i b) as [d [m| |]]; cbn [fst snd with_des ds_err ds_cb]; rewrite with_info_err, with_info_cb; auto.
      + cbn [fst snd]. rewrite with_info_err, with_info_cb. auto.
    - cbn [ds_err ds_cb ds_alive handled]. auto.
    - destruct on; [|discriminate]. cbn [ds_err ds_cb ds_alive handled]. auto.
  Qed.
  Lemma dead_stays l : forall s, ds_alive s = false -> fst (run s l) = s /\ snd (run s l) = [].
  Proof.
    induction l as [|a l IH]; intros s H; [auto|]. unfold run in *. cbn [d_run]. unfold d_step. rewrite H. destruct (IH s H) as [A B].
    destruct (d_run D I M des s l). cbn [fst snd] in *. subst. auto.
  Qed.
  Lemma account_run l : forall s, ds_err s = true -> forallb returning l = true -> existsb silences l = false -> ds_alive (fst (run s l)) = true ->
    said_count (snd (run s l)) = handled (ds_cb s) l.
  Proof.
    induction l as [|a l IH]; intros s E R Q A; [reflexivity|]. cbn [forallb existsb] in R, Q. apply andb_true_iff in R as [R1 R2]. apply orb_false_iff in Q as [Q1 Q2].
    unfold run in *. cbn [d_run] in A |- *. pose proof (account_step s a E R1 Q1) as St. unfold step in St. destruct (d_step D I M des s a) as [s1 o]. cbn [fst snd] in St.
    destruct (ds_alive s1) eqn:L.
    - destruct (St eq_refl) as [S1 [S2 S3]]. specialize (IH s1 S1 R2 Q2). destruct (d_run D I M des s1 l) as [s2 o2]. cbn [fst snd] in *. specialize (IH A).
      unfold said_count in *. rewrite filter_app, app_length, S2, IH, S3. destruct a as [? ? ?|? ?|on|on]; cbn [handled]; destruct (ds_cb s); try reflexivity; lia.
    - destruct (dead_stays l s1 L) as [B _]. unfold run in B. destruct (d_run D I M des s1 l). cbn [fst snd] in *. subst. congruence.
  Qed.
End Accounts.

Lemma accounted D I M (start : D) des l : forallb returning l = true -> existsb silences l = false ->
  ds_alive (fst (d_run D I M des (dsub_init D I start) (AError true :: l))) = true ->
  length (filter reported (snd (d_run D I M des (dsub_init D I start) (AError true :: l)))) = handled false l.
Proof.
  intros R Q A. pose proof (account_run D I M des l (fst (d_step D I M des (dsub_init D I start) (AError true))) eq_refl R Q) as H.
  cbn [d_run] in *. cbn [d_step dsub_init ds_alive fst ds_cb] in *. destruct (d_run D I M des _ l) as [s o]. cbn [fst snd app] in *. exact (H A).
Qed.

(** The protobuf subscriber. *)
Lemma proto_survives parse l : forallb well_behaved l = true ->
  ds_alive (fst (proto_said parse l)) = true /\ ~ In STerminated (snd (proto_said parse l)) /\ ~ In SThrown (snd (proto_said parse l)).
Proof.
  intros W. pose proof (safe_run deser dinfo (mtype * text) deser_init (proto_deserialize parse) no_null ltac:(discriminate) (proto_safe parse) l W) as H.
  exact (proj2 H).
Qed.

(** The state of a deserializer in a subscriber is that of a run. *)
Lemma json_state json l : exists hs, ds_des (fst (json_said json l)) = json_run json hs.
Proof.
  induction l as [|a l [hs IH]] using rev_ind; [exists []; reflexivity|]. unfold json_said in *. rewrite d_run_snoc. cbn [fst].
  set (s := fst (d_run jser dinfo (mtype * text) (json_deserialize json) (dsub_init jser dinfo jser_init) l)) in *. clearbody s.
  assert (Q : forall i b, json_run json (hs ++ [(i, b)]) = fst (json_deserialize json (ds_des s) i b)) by (intros i b; rewrite IH; apply json_run_snoc).
  unfold d_step. destruct (ds_alive s); [|exists hs; exact IH]. destruct a as [b k e|b k|on|on]; cbn [fst ds_des]; try (exists hs; exact IH).
  - unfold on_message. destruct (negb (ds_cb s)); [exists hs; exact IH|]. destruct (ds_info (with_info _ _ s k)) as [i|]; [|exists hs; cbn [fst]; rewrite with_info_des; exact IH].
    exists (hs ++ [(i, b)]). rewrite Q, with_info_des. destruct (json_deserialize json (ds_des s) i b) as [d [m| |]]; [destruct e| |]; reflexivity.
  - unfold on_receive. destruct b as [b|]; [|exists hs; exact IH]. destruct (ds_info (with_info _ _ s k)) as [i|]; [|exists hs; cbn [fst]; rewrite with_info_des; exact IH].
    exists (hs ++ [(i, b)]). rewrite Q, with_info_des. destruct (json_deserialize json (ds_des s) i b) as [d [m| |]]; reflexivity.
Qed.
Lemma with_info_value D I (s : dsub D I) k i : ds_info s = Some i \/ ds_info s = None /\ k = Some i -> ds_info (with_info D I s k) = Some i.
Proof. unfold with_info. intros [H|[H ->]]; rewrite H; [exact H|reflexivity]. Qed.
Lemma json_terminates json l b k e i : let s := fst (json_said json l) in
  ds_alive s = true -> ds_cb s = true -> ds_info s = Some i \/ ds_info s = None /\ k = Some i -> ~ vacuous i -> (forall t, json t b = None) ->
  ds_alive (fst (json_said json (l ++ [AMessage b k e]))) = false /\
  snd (json_said json (l ++ [AMessage b k e])) = snd (json_said json l) ++ [STerminated].
Proof.
  intros s A C K V J. unfold json_said. rewrite d_run_snoc. cbn [fst snd].
  change (fst (d_run jser dinfo (mtype * text) (json_deserialize json) (dsub_init jser dinfo jser_init) l)) with s.
  unfold d_step. rewrite A. unfold on_message. rewrite C. cbn [negb]. rewrite (with_info_value _ _ s k i K), with_info_des.
  destruct (json_state json l) as [hs H]. fold s in H. rewrite H. pose proof (json_found json hs i b J V) as F. unfold json_after in F.
  destruct (json_deserialize json (json_run json hs) i b) as [d o]. cbn [snd] in F. subst o. cbn [fst snd dead ds_alive]. auto.
Qed.

(** The Cap'n Proto subscriber. *)
Lemma capnp_quiet so up wo l : existsb receives l = false ->
  (ds_alive (fst (capnp_said so up wo l)) = true -> ds_des (fst (capnp_said so up wo l)) = cser_init) /\ forall m, ~ In (SCalled m) (snd (capnp_said so up wo l)).
Proof.
  induction l as [|a l IH] using rev_ind; intros R; [cbn; auto|]. rewrite existsb_app in R. apply orb_false_iff in R as [R1 R2]. cbn [existsb] in R2. rewrite orb_false_r in R2.
  destruct (IH R1) as [I1 I2]. unfold capnp_said in *. rewrite d_run_snoc. cbn [fst snd].
  set (s := fst (d_run cser cinfo (cnode * list Z) (capnp_deserialize so up wo) (dsub_init cser cinfo cser_init) l)) in *. clearbody s.
  unfold d_step. destruct (ds_alive s) eqn:A.
  2: { cbn [fst snd]. split; [congruence|]. rewrite app_nil_r. exact I2. }
  specialize (I1 eq_refl). destruct a as [b k e|b k|on|on]; cbn [fst snd ds_des]; try (split; [auto|rewrite app_nil_r; exact I2]); [|discriminate].
  unfold on_message. destruct (negb (ds_cb s)); [cbn [fst snd]; split; [auto|rewrite app_nil_r; exact I2]|].
  assert (Q : forall m, ~ In (SCalled m) (complains cser cinfo (cnode * list Z) s)) by (intros m; unfold complains; destruct (ds_err s); intros C; [destruct C as [C|[]]; discriminate|destruct C]).
  destruct (ds_info (with_info cser cinfo s k)) as [i|].
  - rewrite with_info_des, I1. pose proof (capnp_unseen so up wo cser_init i b ltac:(intros [])) as U. destruct (capnp_deserialize so up wo cser_init i b) as [d o]. cbn [snd] in U. subst o.
    cbn [fst snd dead ds_alive]. split; [discriminate|]. intros m C. apply in_app_or in C as [C|[C|[]]]; [exact (I2 m C)|discriminate].
  - cbn [fst snd]. rewrite with_info_des. split; [auto|]. intros m C. apply in_app_or in C as [C|C]; [exact (I2 m C)|].
    apply (Q m). unfold complains in *. rewrite with_info_err in C. exact C.
Qed.
Lemma capnp_dies so up wo l b k e i : existsb receives l = false -> let s := fst (capnp_said so up wo l) in
  ds_alive s = true -> ds_cb s = true -> ds_info s = Some i \/ ds_info s = None /\ k = Some i ->
  ds_alive (fst (capnp_said so up wo (l ++ [AMessage b k e]))) = false /\
  snd (capnp_said so up wo (l ++ [AMessage b k e])) = snd (capnp_said so up wo l) ++ [STerminated].
Proof.
  intros R s A C K. destruct (capnp_quiet so up wo l R) as [I1 _]. specialize (I1 A). unfold capnp_said. rewrite d_run_snoc. cbn [fst snd].
  change (fst (d_run cser cinfo (cnode * list Z) (capnp_deserialize so up wo) (dsub_init cser cinfo cser_init) l)) with s.
  unfold d_step. rewrite A. unfold on_message. rewrite C. cbn [negb]. rewrite (with_info_value _ _ s k i K), with_info_des. fold s in I1. rewrite I1.
  pose proof (capnp_unseen so up wo cser_init i b ltac:(intros [])) as U. destruct (capnp_deserialize so up wo cser_init i b) as [d o]. cbn [snd] in U. subst o. auto.
Qed.
Lemma capnp_receive so up wo l b i : existsb receives l = false -> ds_alive (fst (capnp_said so up wo l)) = true ->
  ds_info (fst (capnp_said so up wo l)) = None ->
  snd (capnp_said so up wo (l ++ [AReceive (Some b) (Some i)])) = snd (capnp_said so up wo l) ++ [SThrown].
Proof.
  intros R A N. destruct (capnp_quiet so up wo l R) as [I1 _]. specialize (I1 A). unfold capnp_said. rewrite d_run_snoc. cbn [snd].
  set (s := fst (d_run cser cinfo (cnode * list Z) (capnp_deserialize so up wo) (dsub_init cser cinfo cser_init) l)) in *. change (fst (capnp_said so up wo l)) with s in A, I1, N. clearbody s.
  unfold d_step. rewrite A. unfold on_receive. rewrite (with_info_value _ _ s (Some i) i (or_intror (conj N eq_refl))), with_info_des, I1.
  pose proof (capnp_unseen so up wo cser_init i b ltac:(intros [])) as U. destruct (capnp_deserialize so up wo cser_init i b) as [d o]. cbn [snd] in U. subst o. reflexivity.
Qed.
Lemma total_many wo b n : wo b = Some 1%Z -> total wo (repeat b n) = Z.of_nat n.
Proof. intros H. unfold total. induction n as [|n IH]; [reflexivity|]. cbn [repeat map fold_right]. rewrite H, IH. lia. Qed.
