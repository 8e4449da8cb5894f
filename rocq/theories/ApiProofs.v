From Verif Require Import Base LifeModel ApiModel ApiSpec.

Lemma keys_aset_in {A} (i : nat) (x y : A) l : aget i l = Some x -> keys (aset i y l) = keys l.
Proof.
  induction l as [|[j z] l IH]; cbn; [discriminate|]. destruct (eqb i j) eqn:E; intros G; [apply eqb_true in E; subst; reflexivity|].
  unfold keys in *. cbn. f_equal. apply IH, G.
Qed.
Lemma nodup_join {A} (l1 l2 : list A) : NoDup l1 -> NoDup l2 -> (forall x, In x l1 -> In x l2 -> False) -> NoDup (l1 ++ l2).
Proof.
  induction l1 as [|a l1 IH]; cbn; intros N1 N2 D; [exact N2|]. inversion N1; subst. constructor; [rewrite in_app_iff; intros [X|X]; [contradiction|exact (D a (or_introl eq_refl) X)]|].
  apply IH; auto. intros x X1 X2. exact (D x (or_intror X1) X2).
Qed.

(** ** Stopping implementations *)
Definition halted (m : impl) : impl := Impl (im_kind m) false (im_named m).
Definition speaks (m : impl) : bool := match im_kind m with QCli => im_named m | _ => true end.
Definition onL (L : list nat) (i : nat) : bool := existsb (Nat.eqb i) L.
Lemma onL_spec L i : onL L i = true <-> In i L.
Proof. unfold onL. rewrite existsb_exists. split; [intros (x & I1 & E); apply Nat.eqb_eq in E; subst; exact I1|intros I1; exists i; split; [exact I1|apply Nat.eqb_refl]]. Qed.
Lemma onL_app L M i : onL (L ++ M) i = (onL L i || onL M i)%bool. Proof. apply existsb_app. Qed.
Definition then_halted (L : list nat) (i : nat) (o : option impl) : option impl :=
  match o with Some m => Some (if onL L i then halted m else m) | None => None end.
(** Those of [L] have been stopped. *)
Record halts (L : list nat) (s s' : apis) : Prop := {
  ha_life : s_life s' = s_life s; ha_api : s_api s' = s_api s; ha_next : s_next s' = s_next s;
  ha_keys : keys (s_impl s') = keys (s_impl s);
  ha_impl : forall i, aget i (s_impl s') = then_halted L i (aget i (s_impl s));
  ha_gone : exists l, gone s' = gone s ++ l /\ NoDup l /\
    forall i, In i l <-> In i L /\ exists m, aget i (s_impl s) = Some m /\ im_runs m = true /\ speaks m = true /\ s_provider s = true }.
Record same (s s' : apis) : Prop := {
  sa_flag : s_flag s' = s_flag s; sa_gate : s_gate s' = s_gate s; sa_manager : s_manager s' = s_manager s; sa_provider : s_provider s' = s_provider s }.
Lemma same_refl s : same s s. Proof. constructor; reflexivity. Qed.
Lemma same_trans a b c : same a b -> same b c -> same a c. Proof. intros [] []. constructor; congruence. Qed.
Lemma halts_nil s s' : s_life s' = s_life s -> s_api s' = s_api s -> s_next s' = s_next s -> s_impl s' = s_impl s -> s_out s' = s_out s -> halts [] s s'.
Proof.
  intros E1 E2 E3 E4 E5. constructor; auto; try congruence.
  - intros i. rewrite E4. destruct (aget i (s_impl s)); reflexivity.
  - exists []. unfold gone. rewrite app_nil_r, E5. split; [reflexivity|]. split; [constructor|]. intros i. split; [intros []|intros ([] & _)].
Qed.
Lemma halts_trans L M a b c : halts L a b -> halts M b c -> s_provider b = s_provider a -> halts (L ++ M) a c.
Proof.
  intros H1 H2 P. constructor.
  - rewrite (ha_life _ _ _ H2). apply H1.
  - rewrite (ha_api _ _ _ H2). apply H1.
  - rewrite (ha_next _ _ _ H2). apply H1.
  - rewrite (ha_keys _ _ _ H2). apply H1.
  - intros i. rewrite (ha_impl _ _ _ H2), (ha_impl _ _ _ H1). unfold then_halted. rewrite onL_app. destruct (aget i (s_impl a)) as [m|]; [|reflexivity]. f_equal.
    destruct (onL L i), (onL M i); reflexivity.
  - destruct (ha_gone _ _ _ H1) as (l1 & G1 & N1 & K1), (ha_gone _ _ _ H2) as (l2 & G2 & N2 & K2). exists (l1 ++ l2). rewrite G2, G1, app_assoc. split; [reflexivity|].
    assert (K : forall i, In i l2 <-> ~ In i L /\ In i M /\ exists m, aget i (s_impl a) = Some m /\ im_runs m = true /\ speaks m = true /\ s_provider a = true).
    { intros i. rewrite K2, P. split.
      - intros (I1 & m & G & R & SP & PR). rewrite (ha_impl _ _ _ H1) in G. destruct (aget i (s_impl a)) as [m0|]; [|discriminate]. cbn in G. injection G as <-.
        destruct (onL L i) eqn:O; [discriminate|]. split; [intros X; apply onL_spec in X; congruence|]. split; [exact I1|]. exists m0. auto.
      - intros (NI & I1 & m & G & R). split; [exact I1|]. exists m. split; [|exact R]. rewrite (ha_impl _ _ _ H1), G. cbn. destruct (onL L i) eqn:O; [|reflexivity]. apply onL_spec in O. contradiction. }
    split.
    + apply nodup_join; [exact N1|exact N2|]. intros i J1 J2. apply K1 in J1. apply K in J2. tauto.
    + intros i. rewrite !in_app_iff, K1, K. destruct (in_dec Nat.eq_dec i L) as [D|D]; tauto.
Qed.
Lemma stop_spec i s : match aget i (s_impl s) with None => im_stop i s = None | Some _ => exists s', im_stop i s = Some s' /\ halts [i] s s' /\ same s s' end.
Proof.
  unfold im_stop. destruct (aget i (s_impl s)) as [m|] eqn:G; [|reflexivity]. destruct (im_runs m) eqn:R.
  - fold (halted m). set (s1 := with_impl (aset i (halted m) (s_impl s)) s).
    assert (B : forall s', same s s' -> s_life s' = s_life s -> s_api s' = s_api s -> s_next s' = s_next s -> s_impl s' = aset i (halted m) (s_impl s) ->
      (exists l, gone s' = gone s ++ l /\ NoDup l /\ forall j, In j l <-> In j [i] /\ exists m, aget j (s_impl s) = Some m /\ im_runs m = true /\ speaks m = true /\ s_provider s = true) ->
      halts [i] s s' /\ same s s').
    { intros s' E0 E1 E2 E3 E4 E5. split; [|exact E0]. constructor; auto.
      - rewrite E4. apply (keys_aset_in i m), G.
      - intros j. rewrite E4, aget_aset. unfold then_halted, onL. cbn [existsb]. rewrite orb_false_r. destruct (eqb j i) eqn:EJ.
        + apply eqb_true in EJ. subst j. rewrite G, Nat.eqb_refl. reflexivity.
        + apply eqb_false in EJ. apply Nat.eqb_neq in EJ. rewrite EJ. destruct (aget j (s_impl s)); reflexivity. }
    assert (N : (speaks m && s_provider s)%bool = false -> exists l, gone s1 = gone s ++ l /\ NoDup l /\
       forall j, In j l <-> In j [i] /\ exists m, aget j (s_impl s) = Some m /\ im_runs m = true /\ speaks m = true /\ s_provider s = true).
    { intros X. exists []. rewrite app_nil_r. split; [reflexivity|]. split; [constructor|]. intros j. split; [intros []|]. intros ([<-|[]] & m' & G' & _ & SP' & P'). rewrite G in G'. injection G' as <-. rewrite SP', P' in X. discriminate. }
    destruct (speaks m) eqn:SP.
    + exists (tell (NUnreg i) s1). split; [unfold speaks in SP; destruct (im_kind m); try reflexivity; rewrite SP; reflexivity|].
      unfold tell. change (s_provider s1) with (s_provider s). destruct (s_provider s) eqn:P.
      * apply B; try reflexivity; [constructor; cbn; auto|]. exists [i]. split; [unfold gone; cbn [s_out]; rewrite flat_map_app; reflexivity|]. split; [repeat constructor; intros []|].
        intros j. split; [|tauto]. intros [<-|[]]. split; [left; reflexivity|]. exists m. auto.
      * apply B; try reflexivity; [constructor; cbn; auto|]. apply N. reflexivity.
    + exists s1. split; [unfold speaks in SP; destruct (im_kind m); try discriminate; rewrite SP; reflexivity|].
      apply B; try reflexivity; [constructor; reflexivity|]. apply N. reflexivity.
  - exists s. split; [reflexivity|]. split; [|apply same_refl]. constructor; auto.
    + intros j. unfold then_halted. destruct (aget j (s_impl s)) as [m0|] eqn:G'; [|reflexivity]. unfold onL. cbn [existsb]. rewrite orb_false_r. destruct (Nat.eqb j i) eqn:E; [|reflexivity].
      apply Nat.eqb_eq in E. subst j. rewrite G in G'. injection G' as <-. destruct m; cbn in *. rewrite R. reflexivity.
    + exists []. rewrite app_nil_r. split; [reflexivity|]. split; [constructor|]. intros j. split; [intros []|]. intros ([<-|[]] & m' & G' & R' & _). rewrite G in G'. congruence.
Qed.
Lemma stops_spec L : forall s, (forall i, In i L -> exists m, aget i (s_impl s) = Some m) -> exists s', im_stops L s = Some s' /\ halts L s s' /\ same s s'.
Proof.
  induction L as [|i L IH]; intros s EX; cbn [im_stops].
  - exists s. split; [reflexivity|]. split; [apply halts_nil; reflexivity|apply same_refl].
  - destruct (EX i (or_introl eq_refl)) as (m & G). pose proof (stop_spec i s) as X. rewrite G in X. destruct X as (s1 & E & H1 & S1). rewrite E.
    destruct (IH s1) as (s' & E' & H' & S').
    { intros j I1. destruct (EX j (or_intror I1)) as (m' & G'). rewrite (ha_impl _ _ _ H1), G'. cbn. eauto. }
    exists s'. split; [exact E'|]. split; [|apply (same_trans _ s1); assumption]. apply (halts_trans [i] L s s1 s'); auto. apply S1.
Qed.

(** ** What holds of every reachable state *)
Definition there (p : piece) (s : apis) : bool := match p_ctx (s_life s) with Some g => g_live g p | None => false end.
Lemma there_gate k s : there (piece_of k) s = gate_there k s. Proof. reflexivity. Qed.
Record good (s : apis) : Prop := {
  g_ni : NoDup (keys (s_impl s));
  g_na : NoDup (keys (s_api s));
  g_lt : forall i m, aget i (s_impl s) = Some m -> i < s_next s;
  g_api : forall h a, aget h (s_api s) = Some a ->
    (a_made a = false /\ a_ptr a = None) \/ (a_made a = true /\ exists i m, a_ptr a = Some i /\ aget i (s_impl s) = Some m /\ im_kind m = a_kind a);
  g_uni : forall h h' k k' i, stands s h k i -> stands s h' k' i -> h = h';
  g_own : forall i m, aget i (s_impl s) = Some m -> exists h, stands s h (im_kind m) i;
  g_ng : forall k, NoDup (s_gate s k);
  g_gate : forall k i, In i (s_gate s k) -> exists m, aget i (s_impl s) = Some m /\ im_kind m = k /\ im_runs m = true;
  g_gone : NoDup (gone s);
  g_dead : forall i, In i (gone s) -> i < s_next s /\ ~ works s i;
  g_shared : forall i m, aget i (s_impl s) = Some m -> im_runs m = true -> shared (im_kind m) = true -> In i (s_gate s (im_kind m));
  g_flag : forall k, s_flag s k = gate_there k s;
  g_none : forall k, gate_there k s = false -> s_gate s k = [];
  g_prov : s_provider s = there KProvider s;
  g_man : gate_there QSrv s = true -> s_manager s = true;
  g_new : forall g, p_ctx (s_life s) = Some g -> g_inited g = false -> forall p, g_live g p = false;
  g_up : forall g, p_ctx (s_life s) = Some g -> g_inited g = true -> g_live g KProvider = true }.
Lemma good0 : good apis0.
Proof.
  constructor; cbn; try (constructor; fail); try discriminate; try (intros; discriminate); try (intros; contradiction).
  all: intros g E; injection E as <-; (reflexivity || discriminate).
Qed.
Lemma held_gate s k i : good s -> In i (s_gate s k) -> forall s', s_api s' = s_api s -> held i s' = true.
Proof.
  intros GD I1 s' E. destruct (g_gate s GD k i I1) as (m & G & _). destruct (g_own s GD i m G) as (h & ST). unfold held. apply orb_true_iff. left.
  apply existsb_exists. exists (h, Api (im_kind m) true (Some i)). split; [rewrite E; apply aget_in, ST|]. cbn. apply Nat.eqb_refl.
Qed.
Lemma releases_held L : forall s, (forall i, In i L -> held i s = true) -> releases L s = Some s.
Proof. induction L as [|i L IH]; intros s H; cbn; [reflexivity|]. unfold release. rewrite (H i (or_introl eq_refl)). apply IH. intros j I1. apply H. right. exact I1. Qed.

(** ** Finalize *)
(** A state within Finalize: [s0] at its beginning, [L] stopped since. *)
Record amid (s0 : apis) (L : list nat) (s : apis) : Prop := {
  am_halts : halts L s0 s;
  am_prov : s_provider s = s_provider s0 }.
Lemma gate_stop_spec s0 L s k : good s0 -> amid s0 L s -> s_flag s k = s_flag s0 k -> s_gate s k = s_gate s0 k ->
  exists s', gate_stop k s = Some s' /\ amid s0 (L ++ s_gate s0 k) s' /\ s_flag s' k = false /\ (shared k = true -> s_gate s' k = []) /\ s_manager s' = s_manager s /\
    (forall j, j <> k -> s_flag s' j = s_flag s j /\ s_gate s' j = s_gate s j).
Proof.
  intros GD [H P] F G. unfold gate_stop. rewrite F, G. destruct (s_flag s0 k) eqn:FK.
  - destruct (stops_spec (s_gate s0 k) s) as (s1 & E1 & H1 & S1).
    { intros i I1. destruct (g_gate s0 GD k i I1) as (m & GI & _). rewrite (ha_impl _ _ _ H), GI. cbn. eauto. }
    rewrite E1. assert (AM : forall s2, s_life s2 = s_life s1 -> s_api s2 = s_api s1 -> s_next s2 = s_next s1 -> s_impl s2 = s_impl s1 -> s_out s2 = s_out s1 -> s_provider s2 = s_provider s1 ->
      amid s0 (L ++ s_gate s0 k) s2).
    { intros s2 A1 A2 A3 A4 A5 A6. constructor.
      - rewrite <- (app_nil_r (L ++ s_gate s0 k)). apply (halts_trans _ _ s0 s1 s2); [|apply halts_nil; auto|].
        + apply (halts_trans _ _ s0 s s1); auto.
        + rewrite (sa_provider _ _ S1). exact P.
      - rewrite A6, (sa_provider _ _ S1). exact P. }
    assert (U : forall A (f : kind -> A) x j, j <> k -> upd f k x j = f j) by (intros A f x j NE; unfold upd; rewrite (neq_eqb j k NE); reflexivity).
    assert (U' : forall A (f : kind -> A) x, upd f k x k = x) by (intros A f x; unfold upd; rewrite eqb_refl; reflexivity).
    destruct (shared k) eqn:SK.
    + rewrite releases_held.
      2: { intros i I1. apply (held_gate s0 k i GD I1). cbn. rewrite (ha_api _ _ _ H1). apply H. }
      exists (with_flag k false (with_gate k [] s1)). split; [reflexivity|]. split; [apply AM; reflexivity|]. split; [apply U'|]. split; [intros _; apply U'|]. split; [cbn; apply S1|].
      intros j NE. cbn. rewrite !U by exact NE. rewrite (sa_flag _ _ S1), (sa_gate _ _ S1). auto.
    + exists (with_flag k false s1). split; [reflexivity|]. split; [apply AM; reflexivity|]. split; [apply U'|]. split; [discriminate|]. split; [cbn; apply S1|].
      intros j NE. cbn. rewrite !U by exact NE. rewrite (sa_flag _ _ S1), (sa_gate _ _ S1). auto.
  - exists s. assert (E : s_gate s0 k = []) by (apply (g_none s0 GD); rewrite <- (g_flag s0 GD); exact FK). rewrite E, app_nil_r. split; [reflexivity|].
    split; [constructor; assumption|]. rewrite G, E. auto.
Qed.
Lemma happens_app t u s : happens (t ++ u) s = match happens t s with Some s1 => happens u s1 | None => None end.
Proof. revert s. induction t as [|h t IH]; intros s; cbn; [reflexivity|]. destruct (happen h s); [apply IH|reflexivity]. Qed.
Lemma stop_idle live p s : kind_of p = None -> p <> KProvider -> happens (stop_one live p) s = Some s.
Proof. intros K N. unfold stop_one. destruct p; try discriminate; try (exfalso; apply N; reflexivity); cbn; destruct (live _); reflexivity. Qed.
Lemma destroy_idle live p s : kind_of p = None -> p <> KProvider -> happens (destroy_one live p) s = Some s.
Proof. intros K N. unfold destroy_one. destruct (live p); [|reflexivity]. destruct p; try discriminate; try (exfalso; apply N; reflexivity); reflexivity. Qed.
Lemma happens_one h s : happens [h] s = happen h s. Proof. cbn [happens]. destruct (happen h s); reflexivity. Qed.
Lemma stop_kind live k s : k <> QCli -> s_flag s k = live (piece_of k) -> happens (stop_one live (piece_of k)) s = gate_stop k s.
Proof.
  intros N F. assert (E : stop_one live (piece_of k) = if live (piece_of k) then [Do Stop (piece_of k)] else []) by (destruct k; try reflexivity; exfalso; apply N; reflexivity).
  rewrite E. destruct (live (piece_of k)).
  - rewrite happens_one. destruct k; reflexivity.
  - unfold gate_stop. rewrite F. reflexivity.
Qed.
Lemma stop_client live s : s_flag s QCli = live KClient -> happens (stop_one live KClient) s = gate_stop QCli (with_manager false s).
Proof.
  intros F. unfold stop_one. rewrite happens_app, happens_one. cbn [happen]. destruct (live KClient) eqn:E.
  - apply happens_one.
  - unfold gate_stop. cbn. rewrite F. reflexivity.
Qed.
Lemma destroy_kind live k s : s_flag s k = false -> (shared k = true -> s_gate s k = []) -> (live (piece_of k) = false -> s_gate s k = []) ->
  exists s', happens (destroy_one live (piece_of k)) s = Some s' /\ halts [] s s' /\ s_provider s' = s_provider s /\ s_manager s' = s_manager s /\ s_flag s' = s_flag s /\ s_gate s' k = [] /\ (forall j, j <> k -> s_gate s' j = s_gate s j).
Proof.
  intros F G N. unfold destroy_one. destruct (live (piece_of k)).
  - assert (E : happens [Do Destroy (piece_of k)] s = Some (with_gate k [] s)).
    { cbn [happens]. replace (happen (Do Destroy (piece_of k)) s) with (gate_destroy k s) by (destruct k; reflexivity). unfold gate_destroy, gate_stop. rewrite F. destruct (shared k) eqn:SK; [|reflexivity].
      rewrite (G eq_refl). reflexivity. }
    exists (with_gate k [] s). split; [exact E|]. split; [apply halts_nil; reflexivity|]. cbn. repeat (split; [reflexivity|]). split; [unfold upd; rewrite eqb_refl; reflexivity|].
    intros j NE. unfold upd. rewrite (neq_eqb j k NE). reflexivity.
  - exists s. split; [reflexivity|]. split; [apply halts_nil; reflexivity|]. auto 8.
Qed.
Definition all_gates (s : apis) : list nat := s_gate s QCli ++ s_gate s QSrv ++ s_gate s QPub ++ s_gate s QSub.
Lemma finalize_effect s g : good s -> p_ctx (s_life s) = Some g -> g_inited g = true ->
  exists s', happens (finalize_trace (g_live g)) s = Some s' /\ halts (all_gates s) s s' /\ (forall k, s_flag s' k = false) /\ (forall k, s_gate s' k = []) /\ s_provider s' = false.
Proof.
  intros GD C IN. assert (F : forall k, s_flag s k = g_live g (piece_of k)) by (intros k; rewrite (g_flag s GD); unfold gate_there; rewrite C; reflexivity).
  assert (NG : forall k, g_live g (piece_of k) = false -> s_gate s k = []) by (intros k X; apply (g_none s GD); unfold gate_there; rewrite C; exact X).
  pose proof (g_up s GD g C IN) as PR. set (live := g_live g) in *.
  assert (A0 : amid s [] (with_manager false s)) by (constructor; [apply halts_nil; reflexivity|reflexivity]).
  destruct (gate_stop_spec s _ _ QCli GD A0 eq_refl eq_refl) as (s1 & E1 & A1 & F1 & _ & _ & O1).
  destruct (gate_stop_spec s _ _ QSrv GD A1) as (s2 & E2 & A2 & F2 & _ & _ & O2); [apply O1; discriminate|apply O1; discriminate|].
  destruct (O1 QSrv) as [FS GS]; [discriminate|]. cbn in FS, GS.
  destruct (gate_stop_spec s _ _ QPub GD A2) as (s3 & E3 & A3 & F3 & G3 & _ & O3).
  { destruct (O2 QPub) as [-> _]; [discriminate|]. apply O1. discriminate. }
  { destruct (O2 QPub) as [_ ->]; [discriminate|]. apply O1. discriminate. }
  destruct (gate_stop_spec s _ _ QSub GD A3) as (s4 & E4 & A4 & F4 & G4 & _ & O4).
  { destruct (O3 QSub) as [-> _]; [discriminate|]. destruct (O2 QSub) as [-> _]; [discriminate|]. apply O1. discriminate. }
  { destruct (O3 QSub) as [_ ->]; [discriminate|]. destruct (O2 QSub) as [_ ->]; [discriminate|]. apply O1. discriminate. }
  assert (FF : forall k, s_flag s4 k = false).
  { intros k. destruct k; [destruct (O4 QPub) as [-> _]; [discriminate|exact F3]|exact F4|destruct (O4 QSrv) as [-> _]; [discriminate|]; destruct (O3 QSrv) as [-> _]; [discriminate|exact F2]|].
    destruct (O4 QCli) as [-> _]; [discriminate|]. destruct (O3 QCli) as [-> _]; [discriminate|]. destruct (O2 QCli) as [-> _]; [discriminate|exact F1]. }
  assert (GP : s_gate s4 QPub = []) by (destruct (O4 QPub) as [_ ->]; [discriminate|apply G3; reflexivity]).
  assert (GU : s_gate s4 QSub = []) by (apply G4; reflexivity).
  set (s5 := with_provider false s4).
  unfold finalize_trace. rewrite happens_app.
  assert (EA : happens (flat_map (stop_one live) stop_order) s = Some s5).
  { unfold stop_order. cbn [flat_map]. rewrite !app_nil_r.
    rewrite happens_app, stop_idle by (reflexivity || discriminate). rewrite happens_app, stop_idle by (reflexivity || discriminate).
    rewrite happens_app, stop_client by (apply (F QCli)). rewrite E1.
    rewrite happens_app, (stop_kind live QSrv) by (first [discriminate | destruct (O1 QSrv) as [-> _]; [discriminate|apply (F QSrv)]]). rewrite E2.
    rewrite happens_app, (stop_kind live QPub) by (first [discriminate | destruct (O2 QPub) as [-> _]; [discriminate|]; destruct (O1 QPub) as [-> _]; [discriminate|apply (F QPub)]]). rewrite E3.
    rewrite happens_app, (stop_kind live QSub) by (first [discriminate | destruct (O3 QSub) as [-> _]; [discriminate|]; destruct (O2 QSub) as [-> _]; [discriminate|]; destruct (O1 QSub) as [-> _]; [discriminate|apply (F QSub)]]). rewrite E4.
    rewrite happens_app, stop_idle by (reflexivity || discriminate). rewrite happens_app, stop_idle by (reflexivity || discriminate).
    rewrite happens_app. replace (happens (stop_one live KProvider) s4) with (Some s5) by (unfold stop_one; rewrite PR; reflexivity).
    rewrite happens_app, stop_idle by (reflexivity || discriminate). rewrite happens_app, stop_idle by (reflexivity || discriminate). rewrite stop_idle by (reflexivity || discriminate). reflexivity. }
  rewrite EA.
  assert (H5 : halts (all_gates s) s s5).
  { assert (EQ : all_gates s = (((([] ++ s_gate s QCli) ++ s_gate s QSrv) ++ s_gate s QPub) ++ s_gate s QSub) ++ []) by (unfold all_gates; rewrite app_nil_r, <- !app_assoc; reflexivity).
    rewrite EQ. apply (halts_trans _ _ s s4 s5); [apply A4|apply halts_nil; reflexivity|apply A4]. }
  assert (NG4 : forall k, live (piece_of k) = false -> s_gate s5 k = []).
  { intros k X. cbn. destruct k; [exact GP|exact GU| |].
    - destruct (O4 QSrv) as [_ ->]; [discriminate|]. destruct (O3 QSrv) as [_ ->]; [discriminate|]. pose proof (NG QSrv X) as Y. pose proof (F QSrv) as Z. rewrite X in Z.
      assert (E2' : gate_stop QSrv s1 = Some s1) by (unfold gate_stop; rewrite FS, Z; reflexivity). rewrite E2' in E2. injection E2 as <-. rewrite GS. exact Y.
    - destruct (O4 QCli) as [_ ->]; [discriminate|]. destruct (O3 QCli) as [_ ->]; [discriminate|]. destruct (O2 QCli) as [_ ->]; [discriminate|]. pose proof (NG QCli X) as Y. pose proof (F QCli) as Z. rewrite X in Z.
      assert (E1' : gate_stop QCli (with_manager false s) = Some (with_manager false s)) by (unfold gate_stop; cbn; rewrite Z; reflexivity). rewrite E1' in E1. injection E1 as <-. exact Y. }
  destruct (destroy_kind live QSrv s5) as (s6 & D6 & H6 & P6 & _ & F6 & G6 & N6); [apply FF|discriminate|apply NG4|].
  destruct (destroy_kind live QCli s6) as (s7 & D7 & H7 & P7 & _ & F7 & G7 & N7); [rewrite F6; apply FF|discriminate|intros X; rewrite N6 by discriminate; apply NG4, X|].
  destruct (destroy_kind live QPub s7) as (s8 & D8 & H8 & P8 & _ & F8 & G8 & N8).
  { rewrite F7, F6. apply FF. } { intros _. rewrite N7, N6 by discriminate. exact GP. } { intros X. rewrite N7, N6 by discriminate. exact GP. }
  destruct (destroy_kind live QSub s8) as (s9 & D9 & H9 & P9 & _ & F9 & G9 & N9).
  { rewrite F8, F7, F6. apply FF. } { intros _. rewrite N8, N7, N6 by discriminate. exact GU. } { intros X. rewrite N8, N7, N6 by discriminate. exact GU. }
  assert (PB : s_provider s9 = false) by (rewrite P9, P8, P7, P6; reflexivity).
  assert (EB : happens (flat_map (destroy_one live) destroy_order) s5 = Some (with_provider false s9)).
  { unfold destroy_order. cbn [flat_map]. rewrite !app_nil_r.
    rewrite happens_app, destroy_idle by (reflexivity || discriminate). rewrite happens_app, destroy_idle by (reflexivity || discriminate).
    rewrite happens_app. change (destroy_one live KServer) with (destroy_one live (piece_of QSrv)). rewrite D6.
    rewrite happens_app. change (destroy_one live KClient) with (destroy_one live (piece_of QCli)). rewrite D7.
    rewrite happens_app. change (destroy_one live KPub) with (destroy_one live (piece_of QPub)). rewrite D8.
    rewrite happens_app. change (destroy_one live KSub) with (destroy_one live (piece_of QSub)). rewrite D9.
    rewrite happens_app, destroy_idle by (reflexivity || discriminate).
    rewrite happens_app. replace (happens (destroy_one live KProvider) s9) with (Some (with_provider false s9)) by (unfold destroy_one; rewrite PR; reflexivity).
    do 3 (rewrite happens_app, destroy_idle by (reflexivity || discriminate)). rewrite destroy_idle by (reflexivity || discriminate). reflexivity. }
  exists (with_provider false s9). split; [exact EB|]. split; [|split; [|split; [|reflexivity]]].
  - assert (H : halts ([] ++ ([] ++ ([] ++ [])) ++ []) s5 (with_provider false s9)).
    { apply (halts_trans _ _ s5 s6); [exact H6| |exact P6]. apply (halts_trans _ _ s6 s9).
      - apply (halts_trans _ _ s6 s7); [exact H7| |exact P7]. apply (halts_trans _ _ s7 s8); [exact H8|exact H9|exact P8].
      - apply halts_nil; reflexivity.
      - rewrite P9, P8, P7. reflexivity. }
    cbn [app] in H. destruct H as [A B D E I J]. destruct H5 as [A' B' D' E' I' J']. constructor; try congruence.
    + intros i. rewrite I, I'. unfold then_halted. destruct (aget i (s_impl s)); reflexivity.
    + destruct J as (l & J1 & _ & J2). assert (l = []) as -> by (destruct l as [|x l]; [reflexivity|]; destruct (proj1 (J2 x) (or_introl eq_refl)) as ([] & _)).
      rewrite app_nil_r in J1. rewrite J1. exact J'.
  - intros k. cbn. rewrite F9, F8, F7, F6. apply FF.
  - intros k. cbn. destruct k; [rewrite N9 by discriminate; exact G8|exact G9|rewrite N9, N8, N7 by discriminate; exact G6|rewrite N9, N8 by discriminate; exact G7].
Qed.

(** ** Initialize *)
Definition gentle (h : happening) : bool := match h with Do Create _ | Do Start _ | ManagerReset | Hook | Unhook => true | _ => false end.
Definition is_do (d : deed) (p : piece) (h : happening) : bool :=
  match h with Do d' p' => eqb p' p && match d, d' with Create, Create | Start, Start => true | _, _ => false end | _ => false end.
Definition is_reset (h : happening) : bool := match h with ManagerReset => true | _ => false end.
Lemma kind_piece p k : kind_of p = Some k -> p = piece_of k. Proof. destruct p; cbn; intros E; try discriminate; injection E as <-; reflexivity. Qed.
Lemma piece_inj k k' : eqb (piece_of k) (piece_of k') = eqb k k'. Proof. destruct k, k'; reflexivity. Qed.
Ltac parts := repeat match goal with |- _ /\ _ => split end; try reflexivity.
Lemma gentle_effect t : forall s, forallb gentle t = true -> exists s', happens t s = Some s' /\
  s_life s' = s_life s /\ s_impl s' = s_impl s /\ s_api s' = s_api s /\ s_next s' = s_next s /\ s_out s' = s_out s /\
  (forall k, s_flag s' k = (s_flag s k || existsb (is_do Start (piece_of k)) t)%bool) /\
  (forall k, s_gate s' k = if existsb (is_do Create (piece_of k)) t then [] else s_gate s k) /\
  s_provider s' = (s_provider s || existsb (is_do Start KProvider) t)%bool /\ s_manager s' = (s_manager s || existsb is_reset t)%bool.
Proof.
  induction t as [|h t IH]; intros s H.
  - exists s. cbn. parts; try (symmetry; apply orb_false_r).
  - cbn [forallb] in H. apply andb_true_iff in H. destruct H as [H1 H2].
    assert (X : exists s1, happen h s = Some s1 /\ s_life s1 = s_life s /\ s_impl s1 = s_impl s /\ s_api s1 = s_api s /\ s_next s1 = s_next s /\ s_out s1 = s_out s /\
      (forall k, s_flag s1 k = (s_flag s k || is_do Start (piece_of k) h)%bool) /\ (forall k, s_gate s1 k = if is_do Create (piece_of k) h then [] else s_gate s k) /\
      s_provider s1 = (s_provider s || is_do Start KProvider h)%bool /\ s_manager s1 = (s_manager s || is_reset h)%bool).
    { destruct h as [d p| | | |]; try discriminate.
      - destruct (kind_of p) as [k0|] eqn:K.
        + pose proof (kind_piece p k0 K). subst p. cbn [happen]. rewrite K. destruct d; try discriminate.
          * exists (with_gate k0 [] s). cbn. parts; try (symmetry; apply orb_false_r).
            all: try (intros k; rewrite andb_false_r, orb_false_r; reflexivity).
            all: try (intros k; rewrite andb_true_r, piece_inj; unfold upd; rewrite eqb_sym; reflexivity).
            all: destruct k0; cbn; rewrite orb_false_r; reflexivity.
          * exists (with_flag k0 true s). cbn. parts; try (symmetry; apply orb_false_r).
            all: try (intros k; rewrite andb_true_r, piece_inj; unfold upd; rewrite eqb_sym; destruct (eqb k0 k); [rewrite orb_true_r|rewrite orb_false_r]; reflexivity).
            all: try (intros k; rewrite andb_false_r; reflexivity).
            all: destruct k0; cbn; rewrite orb_false_r; reflexivity.
        + assert (NK : forall k, eqb p (piece_of k) = false) by (intros k; destruct p, k; try discriminate; reflexivity).
          assert (NS : p <> KProvider \/ d = Create -> happen (Do d p) s = Some s).
          { intros W. cbn [happen]. rewrite K. destruct p; try reflexivity; destruct d; try discriminate; try reflexivity; destruct W as [W|W]; try discriminate; exfalso; apply W; reflexivity. }
          destruct (eqb p KProvider) eqn:EP.
          * apply eqb_true in EP. subst p. destruct d; try discriminate.
            -- exists s. split; [apply NS; auto|]. cbn. parts; try (symmetry; apply orb_false_r).
               all: intros k; destruct k; try (symmetry; apply orb_false_r); reflexivity.
            -- exists (with_provider true s). split; [reflexivity|]. cbn. parts; try (symmetry; apply orb_false_r).
               all: try (symmetry; apply orb_true_r).
               all: intros k; destruct k; try (symmetry; apply orb_false_r); reflexivity.
          * exists s. split; [apply NS; left; intros ->; rewrite eqb_refl in EP; discriminate|]. cbn. rewrite EP. cbn. parts; try (symmetry; apply orb_false_r).
            all: intros k; rewrite NK; try (symmetry; apply orb_false_r); reflexivity.
      - exists (with_manager true s). cbn. parts; try (symmetry; apply orb_false_r); try (intros k; symmetry; apply orb_false_r). symmetry. apply orb_true_r.
      - exists s. cbn. parts; try (symmetry; apply orb_false_r); try (intros k; symmetry; apply orb_false_r).
      - exists s. cbn. parts; try (symmetry; apply orb_false_r); try (intros k; symmetry; apply orb_false_r). }
    destruct X as (s1 & E1 & A1 & A2 & A3 & A4 & A5 & A6 & A7 & A8 & A9). destruct (IH s1 H2) as (s' & E' & B1 & B2 & B3 & B4 & B5 & B6 & B7 & B8 & B9).
    exists s'. cbn [happens]. rewrite E1. split; [exact E'|]. cbn [existsb]. repeat (split; [congruence|]). split; [|split; [|split]].
    + intros k. rewrite B6, A6, <- orb_assoc. reflexivity.
    + intros k. rewrite B7, A7. destruct (is_do Create (piece_of k) h); cbn; [|reflexivity]. destruct (existsb (is_do Create (piece_of k)) t); reflexivity.
    + rewrite B8, A8, <- orb_assoc. reflexivity.
    + rewrite B9, A9, <- orb_assoc. reflexivity.
Qed.
Lemma existsb_flat {A B} (f : B -> bool) (g : A -> list B) l : existsb f (flat_map g l) = existsb (fun x => existsb f (g x)) l.
Proof. induction l as [|a l IH]; cbn; [reflexivity|]. rewrite existsb_app, IH. reflexivity. Qed.
Lemma existsb_if {B} (f : B -> bool) (b : bool) l : existsb f (if b then l else []) = (b && existsb f l)%bool. Proof. destruct b; reflexivity. Qed.
Ltac boolean := repeat rewrite ?andb_false_r, ?andb_true_r, ?orb_false_r, ?orb_false_l, ?orb_true_r.
Lemma init_starts ask live k : existsb (is_do Start (piece_of k)) (initialize_trace ask live) = ask (piece_of k).
Proof.
  unfold initialize_trace. rewrite existsb_app, !existsb_flat. unfold create_order, start_order, create_one, start_one. cbn [existsb]. rewrite !existsb_app, !existsb_if.
  destruct k; cbn [existsb is_do piece_of eqb eq_dec EqDec_piece]; unfold eqb; cbn; boolean; reflexivity.
Qed.
Lemma init_provider ask live : existsb (is_do Start KProvider) (initialize_trace ask live) = ask KProvider.
Proof.
  unfold initialize_trace. rewrite existsb_app, !existsb_flat. unfold create_order, start_order, create_one, start_one. cbn [existsb]. rewrite !existsb_app, !existsb_if.
  cbn [existsb is_do]; unfold eqb; cbn; boolean; reflexivity.
Qed.
Lemma init_creates ask live k : existsb (is_do Create (piece_of k)) (initialize_trace ask live) = (ask (piece_of k) && negb (live (piece_of k)))%bool.
Proof.
  unfold initialize_trace. rewrite existsb_app, !existsb_flat. unfold create_order, start_order, create_one, start_one. cbn [existsb]. rewrite !existsb_app, !existsb_if.
  destruct k; cbn [existsb is_do piece_of]; unfold eqb; cbn; boolean; reflexivity.
Qed.
Lemma init_resets ask live : existsb is_reset (initialize_trace ask live) = ask KServer.
Proof.
  unfold initialize_trace. rewrite existsb_app, !existsb_flat. unfold create_order, start_order, create_one, start_one. cbn [existsb]. rewrite !existsb_app, !existsb_if.
  cbn; boolean; reflexivity.
Qed.
Lemma init_gentle ask live : forallb gentle (initialize_trace ask live) = true.
Proof.
  apply forallb_forall. intros h I1. unfold initialize_trace in I1. apply in_app_iff in I1. destruct I1 as [I1|I1]; apply in_flat_map in I1; destruct I1 as (p & _ & I1).
  - unfold create_one in I1. apply in_app_iff in I1. destruct I1 as [I1|I1].
    + destruct p; try contradiction. destruct (ask KServer); [|contradiction]. destruct I1 as [<-|[]]. reflexivity.
    + destruct (ask p && negb (live p))%bool; [|contradiction]. destruct I1 as [<-|[]]. reflexivity.
  - unfold start_one in I1. destruct p; try (destruct (ask _); [|contradiction]); destruct I1 as [<-|[]]; reflexivity.
Qed.

(** ** The calls of LifeModel *)
Lemma good_move s s' : good s -> s_impl s' = s_impl s -> s_api s' = s_api s -> s_next s' = s_next s -> s_out s' = s_out s -> (forall k, s_gate s' k = s_gate s k) ->
  (forall k, s_flag s' k = gate_there k s') -> (forall k, gate_there k s' = false -> gate_there k s = false) -> s_provider s' = there KProvider s' -> (gate_there QSrv s' = true -> s_manager s' = true) ->
  (forall g, p_ctx (s_life s') = Some g -> g_inited g = false -> forall p, g_live g p = false) -> (forall g, p_ctx (s_life s') = Some g -> g_inited g = true -> g_live g KProvider = true) -> good s'.
Proof.
  intros GD EI EA EN EO EG H1 H2 H3 H4 H5 H6. assert (W : forall i, works s' i <-> works s i) by (intros i; unfold works; rewrite EI; tauto).
  assert (ST : forall h k i, stands s' h k i <-> stands s h k i) by (intros h k i; unfold stands; rewrite EA; tauto). assert (GO : gone s' = gone s) by (unfold gone; rewrite EO; reflexivity).
  constructor; auto; rewrite ?EI, ?EA, ?EN, ?GO; try apply GD.
  - intros h h' k k' i. rewrite !ST. apply GD.
  - intros i m G. destruct (g_own s GD i m G) as (h & X). exists h. apply ST, X.
  - intros k. rewrite EG. apply GD.
  - intros k i. rewrite EG. apply GD.
  - intros i. rewrite W. apply GD.
  - intros i m G. rewrite EG. apply (g_shared s GD i m G).
  - intros k X. rewrite EG. apply (g_none s GD), H2, X.
Qed.
(** Nothing happened to the objects. *)
Record still (s s' : apis) : Prop := {
  sl_impl : s_impl s' = s_impl s; sl_api : s_api s' = s_api s; sl_next : s_next s' = s_next s; sl_out : s_out s' = s_out s; sl_gate : forall k, s_gate s' k = s_gate s k }.
(** The final Finalize. *)
Record ended (s s' : apis) : Prop := {
  en_halts : exists s1, halts (all_gates s) s s1 /\ s_impl s' = s_impl s1 /\ s_api s' = s_api s1 /\ s_next s' = s_next s1 /\ s_out s' = s_out s1;
  en_gate : forall k, s_gate s' k = [];
  en_ctx : p_ctx (s_life s') = None }.
Lemma life_globals s : good s -> good (with_life (init_globals (s_life s)) s).
Proof.
  intros GD. destruct (p_ctx (s_life s)) as [g|] eqn:C.
  - assert (E : init_globals (s_life s) = s_life s) by (unfold init_globals; rewrite C; reflexivity). rewrite E. apply (good_move s); auto; try apply GD.
  - assert (T : forall p, there p (with_life (init_globals (s_life s)) s) = false) by (intros p; unfold there, init_globals; cbn; rewrite C; reflexivity).
    assert (T' : forall p, there p s = false) by (intros p; unfold there; rewrite C; reflexivity).
    apply (good_move s); auto.
    + intros k. change (gate_there k (with_life (init_globals (s_life s)) s)) with (there (piece_of k) (with_life (init_globals (s_life s)) s)). rewrite T. cbn. rewrite (g_flag s GD). apply T'.
    + intros k _. apply T'.
    + rewrite T. cbn. rewrite (g_prov s GD). apply T'.
    + intros X. exfalso. change (there KServer (with_life (init_globals (s_life s)) s) = true) in X. rewrite T in X. discriminate.
    + cbn. unfold init_globals. rewrite C. cbn. intros g E _ p. injection E as <-. reflexivity.
    + cbn. unfold init_globals. rewrite C. cbn. intros g E X. injection E as <-. discriminate.
Qed.
Lemma life_init s p0 m d z p t : good (with_life p0 s) -> initialize m d p0 = Some (z, p, t) -> exists s1, happens t s = Some s1 /\ good (with_life p s1) /\ still s (with_life p s1).
Proof.
  intros GD E. unfold initialize in E. destruct (p_ctx p0) as [g|] eqn:C; [|discriminate]. destruct (d && negb (g_live g KTime || asked m KTime))%bool; [discriminate|]. injection E as <- <- <-.
  destruct (gentle_effect (initialize_trace (asked m) (g_live g)) s (init_gentle _ _)) as (s1 & E1 & A1 & A2 & A3 & A4 & A5 & A6 & A7 & A8 & A9). exists s1. split; [exact E1|].
  assert (GT : forall k, gate_there k (with_life p0 s) = g_live g (piece_of k)) by (intros k; unfold gate_there; cbn; rewrite C; reflexivity).
  assert (GE : forall k, s_gate s1 k = s_gate s k).
  { intros k. rewrite A7, init_creates. destruct (g_live g (piece_of k)) eqn:L; [rewrite andb_false_r; reflexivity|]. pose proof (g_none _ GD k) as X. rewrite GT, L in X. cbn in X. rewrite (X eq_refl).
    destruct (asked m (piece_of k) && negb false)%bool; reflexivity. }
  set (p := mkProcess (Some (mkGlobals (fun q => (g_live g q || asked m q)%bool) true)) (p_count p0 + 1) (p_event p0)).
  assert (TH : forall q, there q (with_life p s1) = (g_live g q || asked m q)%bool) by reflexivity.
  split; [|constructor; auto].
  apply (good_move (with_life p0 s)); auto.
  - intros k. change (gate_there k (with_life p s1)) with (there (piece_of k) (with_life p s1)). rewrite TH. cbn [s_flag with_life]. rewrite A6, init_starts. f_equal. pose proof (g_flag _ GD k) as X. rewrite GT in X. exact X.
  - intros k X. change (there (piece_of k) (with_life p s1) = false) in X. rewrite TH in X. apply orb_false_iff in X. rewrite GT. apply X.
  - rewrite TH. cbn [s_provider with_life]. rewrite A8, init_provider. f_equal. pose proof (g_prov _ GD) as X. unfold there in X. cbn in X. rewrite C in X. exact X.
  - intros X. change (there KServer (with_life p s1) = true) in X. rewrite TH in X. cbn [s_manager with_life]. rewrite A9, init_resets. apply orb_true_iff in X. apply orb_true_iff. destruct X as [X|X]; [|auto]. left.
    apply (g_man _ GD). rewrite GT. exact X.
  - cbn. intros g' X. injection X as <-. cbn. discriminate.
  - cbn. intros g' X _. injection X as <-. cbn. apply orb_true_r.
Qed.
Lemma ended_good s s' : good s -> ended s s' -> (forall k, s_flag s' k = false) -> s_provider s' = false -> good s'.
Proof.
  intros GD [(s1 & H & EI & EA & EN & EO) EG EC] F P.
  assert (T : forall p, there p s' = false) by (intros p; unfold there; rewrite EC; reflexivity).
  assert (AI : forall i, aget i (s_impl s') = then_halted (all_gates s) i (aget i (s_impl s))) by (intros i; rewrite EI; apply H).
  assert (EA' : s_api s' = s_api s) by (rewrite EA; apply H). assert (EN' : s_next s' = s_next s) by (rewrite EN; apply H).
  assert (BK : forall i m, aget i (s_impl s') = Some m -> exists m0, aget i (s_impl s) = Some m0 /\ im_kind m0 = im_kind m /\ (im_runs m = true -> m = m0 /\ ~ In i (all_gates s))).
  { intros i m G. rewrite AI in G. destruct (aget i (s_impl s)) as [m0|]; [|discriminate]. cbn in G. injection G as <-. exists m0. split; [reflexivity|]. destruct (onL (all_gates s) i) eqn:O; cbn; split; auto; try discriminate.
    intros _. split; [reflexivity|]. intros X. apply onL_spec in X. congruence. }
  assert (GO : gone s' = gone s1) by (unfold gone; rewrite EO; reflexivity).
  destruct (ha_gone _ _ _ H) as (l & GL & NL & KL). constructor.
  - rewrite EI, (ha_keys _ _ _ H). apply GD.
  - rewrite EA'. apply GD.
  - intros i m G. rewrite EN'. destruct (BK i m G) as (m0 & G0 & _). apply (g_lt s GD i m0 G0).
  - intros h a. rewrite EA'. intros G. destruct (g_api s GD h a G) as [X|(X & i & m & X1 & X2 & X3)]; [left; exact X|]. right. split; [exact X|]. exists i.
    rewrite AI, X2. cbn. eexists. split; [exact X1|]. split; [reflexivity|]. destruct (onL (all_gates s) i); exact X3.
  - intros h h' k k' i. unfold stands. rewrite EA'. apply GD.
  - intros i m G. destruct (BK i m G) as (m0 & G0 & K & _). rewrite <- K. destruct (g_own s GD i m0 G0) as (h & X). exists h. unfold stands. rewrite EA'. exact X.
  - intros k. rewrite EG. constructor.
  - intros k i. rewrite EG. intros [].
  - rewrite GO, GL. apply nodup_join; [apply GD|exact NL|]. intros i X1 X2. apply KL in X2. destruct X2 as (_ & m & G & R & _). destruct (g_dead s GD i X1) as [_ X]. apply X. exists m. auto.
  - intros i. rewrite GO, GL, EN', in_app_iff. intros [X|X].
    + destruct (g_dead s GD i X) as [X1 X2]. split; [exact X1|]. intros (m & G & R). destruct (BK i m G) as (m0 & G0 & _ & U). destruct (U R) as [EM _]. apply X2. exists m0. rewrite <- EM at 2. auto.
    + apply KL in X. destruct X as (X1 & m & G & _). split; [apply (g_lt s GD i m G)|]. intros (m' & G' & R'). destruct (BK i m' G') as (mm & GG & KK & U). apply (proj2 (U R')), X1.
  - intros i m G R SH. exfalso. destruct (BK i m G) as (m0 & G0 & K & U). destruct (U R) as [EM NI]. rewrite EM in R, SH. apply NI. pose proof (g_shared s GD i m0 G0 R SH) as X. unfold all_gates. rewrite !in_app_iff. destruct (im_kind m0); tauto.
  - intros k. rewrite F. symmetry. apply (T (piece_of k)).
  - intros k _. apply EG.
  - rewrite P. symmetry. apply T.
  - intros X. pose proof (T KServer) as Y. change (there KServer s' = true) in X. congruence.
  - intros g E. congruence.
  - intros g E. congruence.
Qed.
Lemma life_fin s z p t : good s -> finalize (s_life s) = Some (z, p, t) -> exists s1, happens t s = Some s1 /\ good (with_life p s1) /\ (still s (with_life p s1) \/ ended s (with_life p s1)).
Proof.
  intros GD E. unfold finalize in E. destruct (p_ctx (s_life s)) as [g|] eqn:C.
  - destruct (p_count (s_life s) - 1 >? 0)%Z.
    + injection E as <- <- <-. exists s. split; [reflexivity|]. split; [|left; constructor; auto]. assert (T : forall q, there q (with_life (mkProcess (Some g) (p_count (s_life s) - 1) (p_event (s_life s))) s) = there q s) by (intros q; unfold there; cbn; rewrite C; reflexivity).
      apply (good_move s); auto.
      * intros k. cbn. rewrite (g_flag s GD). symmetry. apply (T (piece_of k)).
      * intros k X. rewrite <- X. symmetry. apply (T (piece_of k)).
      * rewrite T. apply GD.
      * intros X. apply (g_man s GD). rewrite <- X. symmetry. apply (T KServer).
      * cbn. intros g' X. injection X as <-. apply (g_new s GD g C).
      * cbn. intros g' X. injection X as <-. apply (g_up s GD g C).
    + destruct (g_inited g) eqn:IN.
      * injection E as <- <- <-. destruct (finalize_effect s g GD C IN) as (s1 & E1 & H & F & G & P). exists s1. split; [exact E1|].
        set (s2 := with_life (mkProcess None (p_count (s_life s) - 1) (p_event (s_life s))) s1). assert (EN : ended s s2) by (constructor; [exists s1; auto|exact G|reflexivity]).
        split; [|right; exact EN]. apply (ended_good s); auto.
      * injection E as <- <- <-. exists s. split; [reflexivity|]. pose proof (g_new s GD g C IN) as N. assert (NG : forall k, gate_there k s = false) by (intros k; unfold gate_there; rewrite C; apply N).
        split; [|left; constructor; auto]. apply (good_move s); auto.
        -- intros k. cbn. rewrite (g_flag s GD). apply NG.
        -- cbn. rewrite (g_prov s GD). unfold there. rewrite C. apply N.
        -- cbn. discriminate.
        -- cbn. discriminate.
        -- cbn. discriminate.
  - injection E as <- <- <-. exists s. split; [reflexivity|]. split; [|left; constructor; auto]. apply (good_move s); auto; apply GD.
Qed.
Lemma life_same s p : good s -> p_ctx p = p_ctx (s_life s) -> good (with_life p s).
Proof.
  intros GD E. assert (T : forall q, there q (with_life p s) = there q s) by (intros q; unfold there; cbn; rewrite E; reflexivity). apply (good_move s); auto.
  - intros k. cbn. rewrite (g_flag s GD). symmetry. apply (T (piece_of k)).
  - intros k X. rewrite <- X. symmetry. apply (T (piece_of k)).
  - rewrite T. apply GD.
  - intros X. apply (g_man s GD). rewrite <- X. symmetry. apply (T KServer).
  - cbn. rewrite E. apply GD.
  - cbn. rewrite E. apply GD.
Qed.
Lemma life_step s c z p t : good s -> perform c (s_life s) = Some (z, p, t) ->
  exists s1, happens t s = Some s1 /\ good (with_life p s1) /\ (still s (with_life p s1) \/ (c = CFinalize /\ ended s (with_life p s1))).
Proof.
  intros GD E. assert (ID : forall p, still s (with_life p s)) by (intros q; constructor; auto). destruct c; cbn [perform] in E.
  - injection E as <- <- <-. exists s. split; [reflexivity|]. split; [apply life_globals, GD|auto].
  - destruct (life_init s _ _ _ _ _ _ (life_globals s GD) E) as (s1 & X1 & X2 & X3). exists s1. auto.
  - assert (GD' : good (with_life (s_life s) s)) by (apply life_same; auto). destruct (life_init s _ _ _ _ _ _ GD' E) as (s1 & X1 & X2 & X3). exists s1. auto.
  - destruct (life_fin s _ _ _ GD E) as (s1 & X1 & X2 & [X3|X3]); exists s1; auto.
  - injection E as <- <- <-. exists s. split; [reflexivity|]. split; [apply life_same; auto|auto].
  - unfold ok in E. destruct (p_ctx (s_life s)) as [g|] eqn:C; injection E as <- <- <-; exists s; (split; [reflexivity|]); (split; [apply life_same; auto; cbn; congruence|auto]).
  - unfold through in E. destruct (p_ctx (s_life s)) as [g|] eqn:C; [|discriminate]. destruct (g_live g KPub); [|discriminate]. injection E as <- <- <-. exists s. split; [reflexivity|]. split; [apply life_same; auto|auto].
  - unfold through in E. destruct (p_ctx (s_life s)) as [g|] eqn:C; [|discriminate]. destruct (g_live g KSub); [|discriminate]. injection E as <- <- <-. exists s. split; [reflexivity|]. split; [apply life_same; auto|auto].
Qed.

(** ** Create, Destroy and moves *)
Lemma gone_tell_reg i s : gone (tell (NReg i) s) = gone s.
Proof. unfold tell. destruct (s_provider s); [|reflexivity]. unfold gone. cbn [s_out]. rewrite flat_map_app. cbn. apply app_nil_r. Qed.
Lemma tell_same n s : s_life (tell n s) = s_life s /\ s_flag (tell n s) = s_flag s /\ s_gate (tell n s) = s_gate s /\ s_impl (tell n s) = s_impl s /\ s_api (tell n s) = s_api s /\
  s_next (tell n s) = s_next s /\ s_manager (tell n s) = s_manager s /\ s_provider (tell n s) = s_provider s.
Proof. unfold tell. destruct (s_provider s) eqn:P; cbn; auto 10. Qed.
(** What Create makes. *)
Record made (h : nat) (k : kind) (named : bool) (s s' : apis) : Prop := {
  ma_life : s_life s' = s_life s; ma_flag : s_flag s' = s_flag s; ma_manager : s_manager s' = s_manager s; ma_provider : s_provider s' = s_provider s;
  ma_impl : s_impl s' = aset (s_next s) (Impl k (match k with QSrv => s_manager s | _ => true end) named) (s_impl s);
  ma_api : s_api s' = aset h (Api k true (Some (s_next s))) (s_api s);
  ma_next : s_next s' = S (s_next s);
  ma_gone : gone s' = gone s;
  ma_gate : forall j, s_gate s' j = if (eqb j k && gate_there k s)%bool then s_gate s j ++ [s_next s] else s_gate s j }.
Lemma create_effect h named s b s' : good s -> api_create h named s = Some (b, s') ->
  (b = false /\ s' = s) \/ (b = true /\ exists k, aget h (s_api s) = Some (Api k false None) /\ made h k named s s' /\ (shared k = true -> gate_there k s = true)).
Proof.
  intros GD E. unfold api_create in E. destruct (aget h (s_api s)) as [[k md pt]|] eqn:GA; [|injection E as <- <-; auto].
  cbn [a_made a_kind] in E. destruct md; [injection E as <- <-; auto|].
  assert (PT : pt = None) by (destruct (g_api s GD h _ GA) as [[_ X]|[X _]]; [exact X|discriminate]). subst pt.
  destruct (shared k && negb named)%bool; [injection E as <- <-; auto|]. right.
  set (i := s_next s) in *. set (runs := match k with QSrv => s_manager s | _ => true end) in *.
  set (s1 := Apis (s_life s) (s_flag s) (s_gate s) (aset i (Impl k runs named) (s_impl s)) (s_api s) (S i) (s_manager s) (s_provider s) (s_out s)) in *.
  set (s2 := match k with QCli => if named then tell (NReg i) s1 else s1 | _ => s1 end) in *.
  assert (S2 : s_life s2 = s_life s1 /\ s_flag s2 = s_flag s1 /\ s_gate s2 = s_gate s1 /\ s_impl s2 = s_impl s1 /\ s_api s2 = s_api s1 /\ s_next s2 = s_next s1 /\ s_manager s2 = s_manager s1 /\ s_provider s2 = s_provider s1 /\ gone s2 = gone s).
  { assert (R : s_life s1 = s_life s1 /\ s_flag s1 = s_flag s1 /\ s_gate s1 = s_gate s1 /\ s_impl s1 = s_impl s1 /\ s_api s1 = s_api s1 /\ s_next s1 = s_next s1 /\ s_manager s1 = s_manager s1 /\ s_provider s1 = s_provider s1 /\ gone s1 = gone s) by auto 10.
    unfold s2. destruct k; try exact R. destruct named; [|exact R]. pose proof (tell_same (NReg i) s1) as (X1 & X2 & X3 & X4 & X5 & X6 & X7 & X8). rewrite X1, X2, X3, X4, X5, X6, X7, X8, gone_tell_reg. auto 10. }
  destruct S2 as (L2 & F2 & G2 & I2 & A2 & N2 & M2 & P2 & O2). cbn in L2, F2, G2, I2, A2, N2, M2, P2. clearbody s2.
  assert (GT : gate_there k s2 = gate_there k s) by (unfold gate_there; rewrite L2; reflexivity). rewrite GT in E. rewrite F2, (g_flag s GD k) in E.
  destruct (gate_there k s) eqn:T.
  - injection E as <- <-. split; [reflexivity|]. exists k. split; [reflexivity|]. split; [|auto]. constructor; cbn; try assumption; try congruence; try exact O2; try (rewrite A2; reflexivity).
    intros j. rewrite T, andb_true_r. unfold upd. destruct (eqb j k) eqn:J; [apply eqb_true in J; subst j|]; rewrite G2; reflexivity.
  - destruct (shared k) eqn:SHK; [discriminate|]. injection E as <- <-. split; [reflexivity|]. exists k. split; [reflexivity|]. split; [|intros X; congruence]. constructor; cbn; try assumption; try congruence; try exact O2; try (rewrite A2; reflexivity).
    intros j. rewrite T, andb_false_r, G2. reflexivity.
Qed.
Lemma stands_api s h k i : stands s h k i -> aget h (s_api s) = Some (Api k true (Some i)). Proof. auto. Qed.
Lemma made_good h k named s s' : good s -> aget h (s_api s) = Some (Api k false None) -> made h k named s s' -> (shared k = true -> gate_there k s = true) -> good s'.
Proof.
  intros GD GA [L F M P EI EA EN EO EG] SH. set (n := s_next s) in *. set (runs := match k with QSrv => s_manager s | _ => true end) in *.
  assert (FR : aget n (s_impl s) = None). { destruct (aget n (s_impl s)) as [m|] eqn:X; [|reflexivity]. pose proof (g_lt s GD n m X). unfold n in H. lia. }
  assert (OLD : forall i, i <> n -> aget i (s_impl s') = aget i (s_impl s)) by (intros i NE; rewrite EI, aget_aset_other by exact NE; reflexivity).
  assert (NEW : aget n (s_impl s') = Some (Impl k runs named)) by (rewrite EI; apply aget_aset_same).
  assert (STN : forall h' k' i, h' <> h -> (stands s' h' k' i <-> stands s h' k' i)) by (intros h' k' i NE; unfold stands; rewrite EA, aget_aset_other by exact NE; tauto).
  assert (STH : forall k' i, stands s' h k' i <-> k' = k /\ i = n). { intros k' i. unfold stands. rewrite EA, aget_aset_same. split; [intros X; injection X as <- <-; auto|intros [-> ->]; reflexivity]. }
  assert (NST : forall h' k' i, stands s h' k' i -> h' <> h /\ i <> n).
  { intros h' k' i X. split; [intros ->; unfold stands in X; congruence|]. intros ->. destruct (g_api s GD h' _ X) as [[Y _]|(_ & i' & m & Y1 & Y2 & _)]; [discriminate|]. cbn in Y1. injection Y1 as <-. congruence. }
  assert (T : forall q, there q s' = there q s) by (intros q; unfold there; rewrite L; reflexivity).
  assert (GN : forall j i, In i (s_gate s j) -> i <> n) by (intros j i X ->; destruct (g_gate s GD j n X) as (m & Y & _); congruence).
  assert (GI : forall j i, In i (s_gate s' j) <-> In i (s_gate s j) \/ (i = n /\ j = k /\ gate_there k s = true)).
  { intros j i. rewrite EG. destruct (eqb j k) eqn:J; cbn [andb].
    - apply eqb_true in J. subst j. destruct (gate_there k s); [rewrite in_app_iff; cbn; intuition congruence|]. intuition discriminate.
    - apply eqb_false in J. intuition. }
  constructor.
  - rewrite EI. apply nodup_aset, GD.
  - rewrite EA. apply nodup_aset, GD.
  - intros i m X. rewrite EN. destruct (Nat.eq_dec i n) as [->|NE]; [unfold n; lia|]. rewrite OLD in X by exact NE. pose proof (g_lt s GD i m X). fold n in H. lia.
  - intros h' a X. rewrite EA, aget_aset in X. destruct (eqb h' h).
    + injection X as <-. right. split; [reflexivity|]. exists n, (Impl k runs named). auto.
    + destruct (g_api s GD h' a X) as [Y|(Y & i & m & Y1 & Y2 & Y3)]; [left; exact Y|]. right. split; [exact Y|]. exists i, m. split; [exact Y1|]. split; [|exact Y3]. rewrite OLD; [exact Y2|]. intros ->. congruence.
  - intros h1 h2 k1 k2 i X1 X2. destruct (Nat.eq_dec h1 h) as [->|N1], (Nat.eq_dec h2 h) as [->|N2]; auto.
    + apply STH in X1. apply STN in X2; [|exact N2]. destruct X1 as [_ ->]. exfalso. exact (proj2 (NST _ _ _ X2) eq_refl).
    + apply STH in X2. apply STN in X1; [|exact N1]. destruct X2 as [_ ->]. exfalso. exact (proj2 (NST _ _ _ X1) eq_refl).
    + apply STN in X1; [|exact N1]. apply STN in X2; [|exact N2]. apply (g_uni s GD h1 h2 k1 k2 i X1 X2).
  - intros i m X. destruct (Nat.eq_dec i n) as [->|NE].
    + rewrite NEW in X. injection X as <-. exists h. apply STH. auto.
    + rewrite OLD in X by exact NE. destruct (g_own s GD i m X) as (h' & Y). exists h'. apply STN; [apply (NST _ _ _ Y)|exact Y].
  - intros j. rewrite EG. destruct (eqb j k && gate_there k s)%bool; [|apply GD]. apply nodup_snoc; [apply GD|]. intros X. exact (GN j n X eq_refl).
  - intros j i X. apply GI in X. destruct X as [X|(-> & -> & X)].
    + destruct (g_gate s GD j i X) as (m & Y). exists m. rewrite OLD by (apply (GN j i X)). exact Y.
    + exists (Impl k runs named). split; [exact NEW|]. split; [reflexivity|]. cbn. unfold runs. destruct k; try reflexivity. apply (g_man s GD X).
  - rewrite EO. apply GD.
  - intros i. rewrite EO, EN. intros X. destruct (g_dead s GD i X) as [Y1 Y2]. fold n in Y1. split; [lia|]. intros (m & Z1 & Z2). rewrite OLD in Z1 by lia. apply Y2. exists m. auto.
  - intros i m X R S1. apply GI. destruct (Nat.eq_dec i n) as [->|NE].
    + right. rewrite NEW in X. injection X as <-. cbn in *. auto.
    + left. rewrite OLD in X by exact NE. apply (g_shared s GD i m X R S1).
  - intros j. rewrite F, (g_flag s GD). symmetry. apply (T (piece_of j)).
  - intros j X. change (there (piece_of j) s' = false) in X. rewrite T in X. rewrite EG. destruct (eqb j k) eqn:J; cbn [andb]; [|apply (g_none s GD j X)]. apply eqb_true in J. subst j.
    change (gate_there k s = false) in X. rewrite X. apply (g_none s GD k X).
  - rewrite P, T. apply GD.
  - intros X. rewrite M. apply (g_man s GD). rewrite <- X. symmetry. apply (T KServer).
  - rewrite L. apply GD.
  - rewrite L. apply GD.
Qed.
(** What Destroy takes away. *)
Record unmade (h : nat) (k : kind) (i : nat) (m : impl) (s s' : apis) : Prop := {
  un_life : s_life s' = s_life s; un_flag : s_flag s' = s_flag s; un_manager : s_manager s' = s_manager s; un_provider : s_provider s' = s_provider s;
  un_keys : keys (s_impl s') = filter (fun j => negb (eqb i j)) (keys (s_impl s));
  un_impl : forall j, aget j (s_impl s') = if Nat.eqb j i then None else aget j (s_impl s);
  un_api : s_api s' = aset h (Api k false None) (s_api s);
  un_next : s_next s' = s_next s;
  un_gone : gone s' = gone s ++ (if (im_runs m && speaks m && s_provider s)%bool then [i] else []);
  un_gate : forall j, s_gate s' j = filter (fun x => negb (Nat.eqb x i)) (s_gate s j) }.
Lemma filter_out {A} (f : A -> bool) l : (forall x, In x l -> f x = true) -> filter f l = l.
Proof. induction l as [|a l IH]; cbn; intros H; [reflexivity|]. rewrite (H a (or_introl eq_refl)). f_equal. apply IH. auto. Qed.
Lemma keys_filter i (l : list (nat * impl)) : keys (adel i l) = filter (fun j => negb (eqb i j)) (keys l).
Proof. unfold keys, adel. induction l as [|[j m] l IH]; cbn; [reflexivity|]. destruct (eqb i j); cbn; rewrite IH; reflexivity. Qed.
Lemma halts_one i m s s' : halts [i] s s' -> aget i (s_impl s) = Some m -> gone s' = gone s ++ (if (im_runs m && speaks m && s_provider s)%bool then [i] else []).
Proof.
  intros H G. destruct (ha_gone _ _ _ H) as (l & E & N & K). rewrite E. f_equal. destruct (im_runs m && speaks m && s_provider s)%bool eqn:B.
  - apply andb_true_iff in B. destruct B as [B P]. apply andb_true_iff in B. destruct B as [R SP].
    assert (I1 : In i l) by (apply K; split; [left; reflexivity|]; exists m; auto). destruct l as [|x [|y l]]; [destruct I1| |].
    + destruct I1 as [->|[]]. reflexivity.
    + exfalso. destruct (proj1 (K x) (or_introl eq_refl)) as ([<-|[]] & _). destruct (proj1 (K y) (or_intror (or_introl eq_refl))) as ([<-|[]] & _). inversion N as [|a b NI]; subst. apply NI. left. reflexivity.
  - destruct l as [|x l]; [reflexivity|]. exfalso. destruct (proj1 (K x) (or_introl eq_refl)) as ([<-|[]] & m' & G' & R & SP & P). rewrite G in G'. injection G' as <-. rewrite R, SP, P in B. discriminate.
Qed.
Lemma destroy_effect h s : good s ->
  (exists s', api_destroy h s = Some (false, s') /\ s' = s /\ forall k i, ~ stands s h k i) \/
  (exists k i m s', api_destroy h s = Some (true, s') /\ stands s h k i /\ aget i (s_impl s) = Some m /\ im_kind m = k /\ unmade h k i m s s').
Proof.
  intros GD. unfold api_destroy. destruct (aget h (s_api s)) as [[k md pt]|] eqn:GA.
  2: { left. exists s. split; [reflexivity|]. split; [reflexivity|]. intros k i X. unfold stands in X. congruence. }
  cbn [a_made a_ptr a_kind]. destruct (g_api s GD h _ GA) as [[Y1 Y2]|(Y1 & i & m & Y2 & GI & KM)]; cbn in *; subst.
  - left. exists s. split; [reflexivity|]. split; [reflexivity|]. intros k' i X. unfold stands in X. rewrite GA in X. discriminate.
  - right. set (k := im_kind m) in *. exists k, i, m. rewrite (g_flag s GD k), andb_diag.
    set (s1 := if gate_there k s then with_gate k (filter (fun j => negb (Nat.eqb j i)) (s_gate s k)) s else s).
    assert (OG : forall j x, In x (s_gate s j) -> j <> k -> x <> i). { intros j x X NE ->. destruct (g_gate s GD j i X) as (m' & Z1 & Z2 & _). rewrite GI in Z1. injection Z1 as <-. apply NE. symmetry. exact Z2. }
    assert (B : s_life s1 = s_life s /\ s_flag s1 = s_flag s /\ s_impl s1 = s_impl s /\ s_api s1 = s_api s /\ s_next s1 = s_next s /\ s_manager s1 = s_manager s /\ s_provider s1 = s_provider s /\ s_out s1 = s_out s).
    { unfold s1. destruct (gate_there k s); cbn; auto 10. }
    destruct B as (B1 & B2 & B3 & B4 & B5 & B6 & B7 & B8).
    assert (GS : forall j, s_gate s1 j = filter (fun x => negb (Nat.eqb x i)) (s_gate s j)).
    { intros j. unfold s1. destruct (gate_there k s) eqn:T.
      - cbn. unfold upd. destruct (eqb j k) eqn:J; [apply eqb_true in J; subst j; reflexivity|]. apply eqb_false in J. symmetry. apply filter_out. intros x X. apply negb_true_iff, Nat.eqb_neq, (OG j x X J).
      - destruct (eqb j k) eqn:J; [apply eqb_true in J; subst j; rewrite (g_none s GD k T); reflexivity|]. apply eqb_false in J. symmetry. apply filter_out. intros x X. apply negb_true_iff, Nat.eqb_neq, (OG j x X J). }
    clearbody s1. pose proof (stop_spec i s1) as X. rewrite B3, GI in X. destruct X as (s2 & E2 & H2 & S2). rewrite E2.
    set (s3 := with_api (aset h (Api k false None) (s_api s2)) s2).
    assert (A2 : s_api s2 = s_api s) by (rewrite (ha_api _ _ _ H2); exact B4).
    assert (HE : held i s3 = false).
    { unfold held. apply orb_false_iff. split.
      - destruct (existsb _ (s_api s3)) eqn:EX; [|reflexivity]. exfalso. apply existsb_exists in EX. destruct EX as ([h' [k' md' pt']] & I1 & Z). cbn in Z. destruct pt' as [j|]; [|discriminate]. apply Nat.eqb_eq in Z. subst j.
        assert (ND : NoDup (keys (s_api s3))) by (cbn; apply nodup_aset; rewrite A2; apply GD). pose proof (in_aget _ _ _ ND I1) as Z. cbn [s3 s_api with_api] in Z. rewrite aget_aset, A2 in Z. destruct (eqb h' h) eqn:EH; [discriminate|]. apply eqb_false in EH.
        destruct (g_api s GD h' _ Z) as [[W1 W2]|(W1 & _)]; cbn in *; [discriminate|]. subst md'. apply EH. exact (g_uni s GD h' h k' k i Z GA).
      - destruct (existsb _ [QPub; QSub]) eqn:EX; [|reflexivity]. exfalso. apply existsb_exists in EX. destruct EX as (j & _ & Z). apply andb_true_iff in Z. destruct Z as [_ Z]. apply onL_spec in Z. cbn [s3 s_gate with_api] in Z.
        rewrite (sa_gate _ _ S2), GS in Z. apply filter_In in Z. destruct Z as [_ Z]. rewrite Nat.eqb_refl in Z. discriminate. }
    unfold release. rewrite HE. pose proof (stop_spec i s3) as X. assert (G3 : aget i (s_impl s3) = Some (halted m)). { change (s_impl s3) with (s_impl s2). rewrite (ha_impl _ _ _ H2), B3, GI. unfold then_halted, onL. cbn [existsb]. rewrite Nat.eqb_refl. reflexivity. }
    rewrite G3 in X. destruct X as (s4 & E4 & H4 & S4). rewrite E4. exists (with_impl (adel i (s_impl s4)) s4). split; [reflexivity|]. split; [exact GA|]. split; [exact GI|]. split; [reflexivity|].
    constructor; cbn.
    + rewrite (ha_life _ _ _ H4). cbn. rewrite (ha_life _ _ _ H2). exact B1.
    + rewrite (sa_flag _ _ S4). cbn. rewrite (sa_flag _ _ S2). exact B2.
    + rewrite (sa_manager _ _ S4). cbn. rewrite (sa_manager _ _ S2). exact B6.
    + rewrite (sa_provider _ _ S4). cbn. rewrite (sa_provider _ _ S2). exact B7.
    + rewrite keys_filter, (ha_keys _ _ _ H4). cbn. rewrite (ha_keys _ _ _ H2), B3. reflexivity.
    + intros j. rewrite aget_adel. destruct (Nat.eqb j i) eqn:J; [apply Nat.eqb_eq in J; subst j; rewrite eqb_refl; reflexivity|]. apply Nat.eqb_neq in J. rewrite (neq_eqb j i J), (ha_impl _ _ _ H4). cbn. rewrite (ha_impl _ _ _ H2), B3.
      unfold then_halted, onL. cbn [existsb]. apply Nat.eqb_neq in J. rewrite J. cbn. destruct (aget j (s_impl s)); reflexivity.
    + rewrite (ha_api _ _ _ H4). cbn. rewrite A2. reflexivity.
    + rewrite (ha_next _ _ _ H4). cbn. rewrite (ha_next _ _ _ H2). exact B5.
    + change (gone s4 = gone s ++ (if (im_runs m && speaks m && s_provider s)%bool then [i] else [])). rewrite (halts_one i (halted m) s3 s4 H4 G3). cbn [im_runs halted andb]. rewrite app_nil_r.
      change (gone s3) with (gone s2). assert (GI1 : aget i (s_impl s1) = Some m) by (rewrite B3; exact GI). rewrite (halts_one i m s1 s2 H2 GI1), B7. unfold gone. rewrite B8. reflexivity.
    + intros j. rewrite (sa_gate _ _ S4). cbn. rewrite (sa_gate _ _ S2). apply GS.
Qed.
Lemma unmade_good h k i m s s' : good s -> stands s h k i -> aget i (s_impl s) = Some m -> im_kind m = k -> unmade h k i m s s' -> good s'.
Proof.
  intros GD GA GI KM [L F M P EK EI EA EN EO EG].
  assert (OLD : forall j, j <> i -> aget j (s_impl s') = aget j (s_impl s)) by (intros j NE; rewrite EI; apply Nat.eqb_neq in NE; rewrite NE; reflexivity).
  assert (NO : aget i (s_impl s') = None) by (rewrite EI, Nat.eqb_refl; reflexivity).
  assert (STN : forall h' k' j, stands s' h' k' j <-> h' <> h /\ stands s h' k' j).
  { intros h' k' j. unfold stands. rewrite EA, aget_aset. destruct (eqb h' h) eqn:EH; [apply eqb_true in EH; subst h'; split; [discriminate|intros [X _]; exfalso; apply X; reflexivity]|]. apply eqb_false in EH. tauto. }
  assert (GG : forall j x, In x (s_gate s' j) <-> In x (s_gate s j) /\ x <> i). { intros j x. rewrite EG, filter_In, negb_true_iff, Nat.eqb_neq. tauto. }
  assert (T : forall q, there q s' = there q s) by (intros q; unfold there; rewrite L; reflexivity).
  constructor.
  - rewrite EK. apply NoDup_filter, GD.
  - rewrite EA. apply nodup_aset, GD.
  - intros j x X. rewrite EN. rewrite EI in X. destruct (Nat.eqb j i); [discriminate|]. apply (g_lt s GD j x X).
  - intros h' a X. rewrite EA, aget_aset in X. destruct (eqb h' h) eqn:EH; [injection X as <-; left; auto|]. apply eqb_false in EH.
    destruct (g_api s GD h' a X) as [Y|(Y & j & x & Y1 & Y2 & Y3)]; [left; exact Y|]. right. split; [exact Y|]. exists j, x. split; [exact Y1|]. split; [|exact Y3]. rewrite OLD; [exact Y2|]. intros ->. apply EH.
    destruct a as [ka ma pa]; cbn in *; subst. exact (g_uni s GD h' h _ _ i X GA).
  - intros h1 h2 k1 k2 j X1 X2. apply STN in X1. apply STN in X2. apply (g_uni s GD h1 h2 k1 k2 j); tauto.
  - intros j x X. rewrite EI in X. destruct (Nat.eqb j i) eqn:J; [discriminate|]. apply Nat.eqb_neq in J. destruct (g_own s GD j x X) as (h' & Y). exists h'. apply STN. split; [|exact Y]. intros ->. unfold stands in *. rewrite Y in GA. injection GA as _ Z. congruence.
  - intros j. rewrite EG. apply NoDup_filter, GD.
  - intros j x X. apply GG in X. destruct X as [X NE]. rewrite OLD by exact NE. apply (g_gate s GD j x X).
  - rewrite EO. apply nodup_join; [apply GD|destruct (im_runs m && speaks m && s_provider s)%bool; repeat constructor; intros []|]. intros x X1 X2. destruct (im_runs m) eqn:R; cbn [andb] in X2; [|destruct X2]. destruct (speaks m && s_provider s)%bool; [|destruct X2]. destruct X2 as [<-|[]].
    apply (proj2 (g_dead s GD i X1)). exists m. auto.
  - intros x. rewrite EO, EN, in_app_iff. intros [X|X].
    + destruct (g_dead s GD x X) as [Y1 Y2]. split; [exact Y1|]. intros (y & Z1 & Z2). rewrite EI in Z1. destruct (Nat.eqb x i); [discriminate|]. apply Y2. exists y. auto.
    + destruct (im_runs m && speaks m && s_provider s)%bool; [|destruct X]. destruct X as [<-|[]]. split; [apply (g_lt s GD i m GI)|]. intros (y & Z1 & _). congruence.
  - intros j x X R SH. rewrite EI in X. destruct (Nat.eqb j i) eqn:J; [discriminate|]. apply Nat.eqb_neq in J. apply GG. split; [apply (g_shared s GD j x X R SH)|exact J].
  - intros j. rewrite F, (g_flag s GD). symmetry. apply (T (piece_of j)).
  - intros j X. change (there (piece_of j) s' = false) in X. rewrite T in X. rewrite EG, (g_none s GD j X). reflexivity.
  - rewrite P, T. apply GD.
  - intros X. rewrite M. apply (g_man s GD). rewrite <- X. symmetry. apply (T KServer).
  - rewrite L. apply GD.
  - rewrite L. apply GD.
Qed.
(** Only the objects change, and what stands still stands somewhere. *)
Lemma reshuffled s l : good s -> NoDup (keys l) ->
  (forall h a, aget h l = Some a -> (a_made a = false /\ a_ptr a = None) \/ (a_made a = true /\ exists i, a_ptr a = Some i /\ exists h0, stands s h0 (a_kind a) i)) ->
  (forall h h' k k' i, aget h l = Some (Api k true (Some i)) -> aget h' l = Some (Api k' true (Some i)) -> h = h') ->
  (forall h k i, stands s h k i -> exists h', aget h' l = Some (Api k true (Some i))) -> good (with_api l s).
Proof.
  intros GD ND A1 A2 A3. constructor; cbn; try apply GD; auto.
  - intros h a G. destruct (A1 h a G) as [X|(X & i & P & h0 & ST)]; [left; exact X|]. right. split; [exact X|]. destruct (g_api s GD h0 _ ST) as [[Y _]|(_ & i' & m & Y1 & Y2 & Y3)]; [discriminate|]. cbn in Y1, Y3. injection Y1 as <-. exists i, m. auto.
  - intros i m G. destruct (g_own s GD i m G) as (h & ST). destruct (A3 h _ _ ST) as (h' & X). exists h'. exact X.
Qed.
Lemma idle_api s h a : good s -> aget h (s_api s) = Some a -> (forall k i, ~ stands s h k i) -> a = Api (a_kind a) false None.
Proof.
  intros GD G N. destruct a as [k md pt]. destruct (g_api s GD h _ G) as [[X1 X2]|(X1 & i & m & X2 & _)]; cbn in *; subst; [reflexivity|]. exfalso. exact (N k i G).
Qed.
Lemma hand_good s h h2 b : good s -> h <> h2 -> aget h (s_api s) = Some (Api (a_kind b) false None) -> aget h2 (s_api s) = Some b -> good (api_hand h h2 s).
Proof.
  intros GD NE G1 G2. unfold api_hand. rewrite G1, G2. cbn [a_kind]. set (l := aset h2 (Api (a_kind b) false None) (aset h (Api (a_kind b) (a_made b) (a_ptr b)) (s_api s))).
  assert (GL : forall x, aget x l = if eqb x h2 then Some (Api (a_kind b) false None) else if eqb x h then Some b else aget x (s_api s)).
  { intros x. unfold l. rewrite !aget_aset. destruct b as [kb mb pb]. reflexivity. }
  assert (PL : forall x k i, aget x l = Some (Api k true (Some i)) <-> (x = h /\ stands s h2 k i) \/ (x <> h /\ x <> h2 /\ stands s x k i)).
  { intros x k i. rewrite GL. destruct (eqb x h2) eqn:X2.
    - apply eqb_true in X2. subst x. split; [discriminate|]. intros [[X _]|(_ & X & _)]; exfalso; apply X || apply NE; auto.
    - apply eqb_false in X2. destruct (eqb x h) eqn:X1.
      + apply eqb_true in X1. subst x. unfold stands. rewrite G2. split; [auto|]. intros [[_ X]|(X & _)]; [exact X|exfalso; apply X; reflexivity].
      + apply eqb_false in X1. split; [intros X; right; auto|]. intros [[X _]|(_ & _ & X)]; [contradiction|exact X]. }
  apply reshuffled; [exact GD|apply nodup_aset, nodup_aset, GD| | |].
  - intros x a X. destruct (a_made a) eqn:MA.
    + right. split; [reflexivity|]. rewrite GL in X. destruct (eqb x h2); [injection X as <-; discriminate|].
      assert (Y : exists x0, aget x0 (s_api s) = Some a) by (destruct (eqb x h); [injection X as <-; eauto|eauto]). destruct Y as (x0 & Y). destruct (g_api s GD x0 a Y) as [[Z _]|(_ & i & m & Z & _)]; [congruence|].
      exists i. split; [exact Z|]. exists x0. unfold stands. rewrite Y. destruct a; cbn in *; subst; reflexivity.
    + left. split; [reflexivity|]. rewrite GL in X. destruct (eqb x h2); [injection X as <-; reflexivity|].
      assert (Y : exists x0, aget x0 (s_api s) = Some a) by (destruct (eqb x h); [injection X as <-; eauto|eauto]). destruct Y as (x0 & Y). destruct (g_api s GD x0 a Y) as [[_ Z]|(Z & _)]; [exact Z|congruence].
  - intros x y k k' i X Y. apply PL in X. apply PL in Y. destruct X as [[-> X]|(X1 & X2 & X)], Y as [[-> Y]|(Y1 & Y2 & Y)]; auto.
    + exfalso. apply Y2. exact (g_uni s GD y h2 _ _ i Y X).
    + exfalso. apply X2. exact (g_uni s GD x h2 _ _ i X Y).
    + exact (g_uni s GD x y _ _ i X Y).
  - intros x k i X. destruct (Nat.eq_dec x h2) as [->|N2]; [exists h; apply PL; auto|]. exists x. apply PL. right. split; [|auto]. intros ->. unfold stands in X. congruence.
Qed.

(** ** One step *)
(** The implementations, the gates and the withdrawals are as before. *)
Record quiet (s s' : apis) : Prop := {
  q_impl : s_impl s' = s_impl s; q_next : s_next s' = s_next s; q_out : s_out s' = s_out s; q_gate : forall k, s_gate s' k = s_gate s k }.
Record taken (i : nat) (m : impl) (s s' : apis) : Prop := {
  ta_impl : forall j, aget j (s_impl s') = if Nat.eqb j i then None else aget j (s_impl s);
  ta_next : s_next s' = s_next s;
  ta_gone : gone s' = gone s ++ (if (im_runs m && speaks m && s_provider s)%bool then [i] else []);
  ta_gate : forall j, s_gate s' j = filter (fun x => negb (Nat.eqb x i)) (s_gate s j) }.
Lemma unmade_taken h k i m s s' : unmade h k i m s s' -> taken i m s s'. Proof. intros []. constructor; auto. Qed.
Inductive went (o : aop) (s : apis) (z : Z) (s' : apis) : Prop :=
| WQuiet : quiet s s' -> went o s z s'
| WEnd : o = OLife CFinalize -> ended s s' -> went o s z s'
| WMade h k named : o = OCreate h named -> z = 1%Z -> aget h (s_api s) = Some (Api k false None) -> made h k named s s' -> went o s z s'
| WTaken h k i m : ends o h -> stands s h k i -> aget i (s_impl s) = Some m -> im_kind m = k -> taken i m s s' -> went o s z s'.
Lemma quiet_refl s : quiet s s. Proof. constructor; auto. Qed.
Lemma step_effect o s z s' : good s -> api_step o s = Some (z, s') -> good s' /\ went o s z s'.
Proof.
  intros GD E. destruct o as [c|h k|h named|h|h|h h2|h h2]; cbn [api_step] in E.
  - destruct (perform c (s_life s)) as [[[z1 p] t]|] eqn:PF; [|discriminate]. destruct (life_step s c z1 p t GD PF) as (s1 & E1 & G1 & W). rewrite E1 in E. injection E as <- <-. split; [exact G1|].
    destruct W as [[]|[-> W]]; [apply WQuiet; constructor; auto|apply WEnd; auto].
  - injection E as <- <-. destruct (aget h (s_api s)) as [a|] eqn:G; [split; [exact GD|apply WQuiet, quiet_refl]|]. split; [|apply WQuiet; constructor; auto].
    apply reshuffled; [exact GD|apply nodup_aset, GD| | |].
    + intros x a. rewrite aget_aset. destruct (eqb x h); intros X; [injection X as <-; left; auto|]. destruct (g_api s GD x a X) as [Y|(Y & i & m & Y1 & _)]; [auto|]. right. split; [exact Y|]. exists i. split; [exact Y1|]. exists x. unfold stands. rewrite X. destruct a; cbn in *; subst; reflexivity.
    + intros x y k1 k2 i. rewrite !aget_aset. destruct (eqb x h); [discriminate|]. destruct (eqb y h); [discriminate|]. apply GD.
    + intros x k1 i X. exists x. rewrite aget_aset_other; [exact X|]. intros ->. unfold stands in X. congruence.
  - destruct (api_create h named s) as [[b s1]|] eqn:C; [|discriminate]. injection E as <- <-. destruct (create_effect h named s b s1 GD C) as [[-> ->]|(-> & k & X1 & X2 & X3)].
    + split; [exact GD|apply WQuiet, quiet_refl].
    + split; [apply (made_good h k named s s1); auto|]. apply (WMade _ _ _ _ h k named); auto.
  - destruct (destroy_effect h s GD) as [(s1 & E1 & -> & _)|(k & i & m & s1 & E1 & X1 & X2 & X3 & X4)]; rewrite E1 in E; injection E as <- <-.
    + split; [exact GD|apply WQuiet, quiet_refl].
    + split; [apply (unmade_good h k i m s s1); auto|]. apply (WTaken _ _ _ _ h k i m); cbn; auto. apply (unmade_taken h k), X4.
  - assert (DEL : forall s1, good s1 -> (forall k i, ~ stands s1 h k i) -> good (with_api (adel h (s_api s1)) s1)).
    { intros s1 G1 NS. assert (AD : forall x a, aget x (adel h (s_api s1)) = Some a <-> x <> h /\ aget x (s_api s1) = Some a).
      { intros x a. rewrite aget_adel. destruct (eqb x h) eqn:X; [apply eqb_true in X; subst; split; [discriminate|intros [Y _]; exfalso; apply Y; reflexivity]|apply eqb_false in X; tauto]. }
      apply reshuffled; [exact G1|apply nodup_adel, G1| | |].
      - intros x a X. apply AD in X. destruct X as [_ X]. destruct (g_api s1 G1 x a X) as [Y|(Y & i & m & Y1 & _)]; [auto|]. right. split; [exact Y|]. exists i. split; [exact Y1|]. exists x. unfold stands. rewrite X. destruct a; cbn in *; subst; reflexivity.
      - intros x y k1 k2 i X Y. apply AD in X. apply AD in Y. apply (g_uni s1 G1 x y k1 k2 i); [apply X|apply Y].
      - intros x k i X. exists x. apply AD. split; [|exact X]. intros ->. exact (NS k i X). }
    destruct (destroy_effect h s GD) as [(s1 & E1 & -> & NS)|(k & i & m & s1 & E1 & X1 & X2 & X3 & X4)]; rewrite E1 in E; injection E as <- <-.
    + split; [apply DEL; auto|]. apply WQuiet. constructor; auto.
    + split; [apply DEL; [apply (unmade_good h k i m s s1); auto|]|].
      * intros k' j Y. unfold stands in Y. rewrite (un_api _ _ _ _ _ _ X4), aget_aset_same in Y. discriminate.
      * apply (WTaken _ _ _ _ h k i m); cbn; auto. destruct X4. constructor; auto.
  - destruct (aget h (s_api s)) as [a|] eqn:GA; [|injection E as <- <-; split; [exact GD|apply WQuiet, quiet_refl]].
    destruct (aget h2 (s_api s)) as [b|] eqn:GB; [|injection E as <- <-; split; [exact GD|apply WQuiet, quiet_refl]].
    destruct (shared (a_kind a) && eqb (a_kind a) (a_kind b))%bool eqn:CO; [|injection E as <- <-; split; [exact GD|apply WQuiet, quiet_refl]].
    apply andb_true_iff in CO. destruct CO as [_ KK]. apply eqb_true in KK.
    destruct (destroy_effect h s GD) as [(s1 & E1 & -> & NS)|(k & i & m & s1 & E1 & X1 & X2 & X3 & X4)]; rewrite E1 in E; injection E as <- <-.
    + destruct (Nat.eqb h h2) eqn:HH; [split; [exact GD|apply WQuiet, quiet_refl]|]. apply Nat.eqb_neq in HH. pose proof (idle_api s h a GD GA NS) as IA. rewrite KK in IA. rewrite IA in GA. split; [apply (hand_good s h h2 b); auto|].
      apply WQuiet. unfold api_hand. rewrite GA, GB. constructor; auto.
    + pose proof (unmade_good h k i m s s1 GD X1 X2 X3 X4) as G1. destruct (Nat.eqb h h2) eqn:HH.
      * split; [exact G1|]. apply (WTaken _ _ _ _ h k i m); cbn; auto. apply (unmade_taken h k), X4.
      * apply Nat.eqb_neq in HH. pose proof X1 as X1'. unfold stands in X1'. rewrite GA in X1'. injection X1' as EA. assert (KA : k = a_kind b) by (rewrite <- KK, EA; reflexivity).
        assert (A1 : aget h (s_api s1) = Some (Api (a_kind b) false None)) by (rewrite (un_api _ _ _ _ _ _ X4), aget_aset_same, KA; reflexivity).
        assert (A2 : aget h2 (s_api s1) = Some b) by (rewrite (un_api _ _ _ _ _ _ X4), aget_aset_other by (intros X; apply HH; symmetry; exact X); exact GB).
        split; [apply (hand_good s1 h h2 b); auto|]. apply (WTaken _ _ _ _ h k i m); cbn; auto. unfold api_hand. rewrite A1, A2. destruct X4. constructor; auto.
  - destruct (aget h (s_api s)) as [a|] eqn:GA; [injection E as <- <-; split; [exact GD|apply WQuiet, quiet_refl]|].
    destruct (aget h2 (s_api s)) as [b|] eqn:GB; [|injection E as <- <-; split; [exact GD|apply WQuiet, quiet_refl]].
    destruct (shared (a_kind b)); [|injection E as <- <-; split; [exact GD|apply WQuiet, quiet_refl]]. injection E as <- <-.
    set (s1 := with_api (aset h (Api (a_kind b) false None) (s_api s)) s).
    assert (NE : h <> h2) by congruence.
    assert (G1 : good s1).
    { apply reshuffled; [exact GD|apply nodup_aset, GD| | |].
      + intros x a. rewrite aget_aset. destruct (eqb x h); intros X; [injection X as <-; left; auto|]. destruct (g_api s GD x a X) as [Y|(Y & i & m & Y1 & _)]; [auto|]. right. split; [exact Y|]. exists i. split; [exact Y1|]. exists x. unfold stands. rewrite X. destruct a; cbn in *; subst; reflexivity.
      + intros x y k1 k2 i. rewrite !aget_aset. destruct (eqb x h); [discriminate|]. destruct (eqb y h); [discriminate|]. apply GD.
      + intros x k1 i X. exists x. rewrite aget_aset_other; [exact X|]. intros ->. unfold stands in X. congruence. }
    assert (A1 : aget h (s_api s1) = Some (Api (a_kind b) false None)) by (cbn; apply aget_aset_same).
    assert (A2 : aget h2 (s_api s1) = Some b) by (cbn; rewrite aget_aset_other by (intros X; apply NE; symmetry; exact X); exact GB).
    split; [apply (hand_good s1 h h2 b); auto|]. apply WQuiet. unfold api_hand. rewrite A1, A2. constructor; auto.
Qed.
Lemma run_good ops : forall s zs s', good s -> api_run ops s = Some (zs, s') -> good s'.
Proof.
  induction ops as [|o ops IH]; cbn; intros s zs s' GD E; [injection E as <- <-; exact GD|].
  destruct (api_step o s) as [[z s1]|] eqn:ST; [|discriminate]. destruct (api_run ops s1) as [[zs1 s2]|] eqn:RN; [|discriminate]. injection E as <- <-.
  apply (IH s1 zs1); [|exact RN]. apply (step_effect o s z s1 GD ST).
Qed.
Lemma reach_good ops zs s : runs_to ops zs s -> good s. Proof. apply run_good, good0. Qed.
Lemma announced_all s k : good s -> announced k s = Some (s_gate s k).
Proof.
  intros GD. unfold announced. rewrite (g_flag s GD), andb_diag. destruct (gate_there k s) eqn:T; [|rewrite (g_none s GD k T); reflexivity].
  replace (forallb _ (s_gate s k)) with true; [reflexivity|]. symmetry. apply forallb_forall. intros i I1. destruct (g_gate s GD k i I1) as (m & G & _). apply amem_spec. exists m. exact G.
Qed.
Lemma announces_iff s k i : good s -> (announces_it s k i <-> In i (s_gate s k)).
Proof. intros GD. unfold announces_it. rewrite (announced_all s k GD). split; [intros (l & E & X); injection E as <-; exact X|intros X; eauto]. Qed.

(** ** The theorems *)
Lemma component_iff s k : component s k <-> gate_there k s = true.
Proof.
  unfold component, gate_there. destruct (p_ctx (s_life s)) as [g|]; split.
  - intros (g' & E & X). injection E as <-. exact X.
  - intros X. eauto.
  - intros (g' & E & _). discriminate.
  - discriminate.
Qed.
Lemma defined_lemma ops zs s o : runs_to ops zs s -> (api_step o s = None <-> unready s o).
Proof.
  intros R. pose proof (reach_good _ _ _ R) as GD. destruct o as [c|h k|h named|h|h|h h2|h h2]; cbn [api_step unready].
  - destruct (perform c (s_life s)) as [[[z p] t]|] eqn:P; [|tauto]. destruct (life_step s c z p t GD P) as (s1 & E & _). rewrite E. split; discriminate.
  - split; [discriminate|intros []].
  - unfold api_create. destruct (aget h (s_api s)) as [a|] eqn:GA.
    2: { split; [discriminate|]. intros (_ & a & X & _). discriminate. }
    destruct (a_made a) eqn:MA. { split; [discriminate|]. intros (_ & a' & X & Y & _). injection X as <-. congruence. }
    destruct (shared (a_kind a) && negb named)%bool eqn:SN. { split; [discriminate|]. intros (-> & _). rewrite andb_false_r in SN. discriminate. }
    set (s1 := Apis _ _ _ _ _ _ _ _ _). set (s2 := match a_kind a with QCli => _ | _ => s1 end).
    assert (L2 : s_life s2 = s_life s) by (unfold s2; destruct (a_kind a); try reflexivity; destruct named; [|reflexivity]; apply (tell_same (NReg (s_next s)) s1)).
    assert (T2 : gate_there (a_kind a) s2 = gate_there (a_kind a) s) by (unfold gate_there; rewrite L2; reflexivity). rewrite T2.
    destruct (gate_there (a_kind a) s) eqn:T.
    + split; [discriminate|]. intros (_ & a' & X & _ & _ & Y). injection X as <-. exfalso. apply Y, component_iff, T.
    + destruct (shared (a_kind a)) eqn:SK.
      * split; [|reflexivity]. intros _. split; [destruct named; [reflexivity|discriminate]|]. exists a. split; [reflexivity|]. split; [exact MA|]. split; [destruct (a_kind a); auto; discriminate|].
        rewrite component_iff, T. discriminate.
      * split; [discriminate|]. intros (_ & a' & X & _ & [Y|Y] & _); injection X as <-; rewrite Y in SK; discriminate.
  - destruct (destroy_effect h s GD) as [(s1 & E1 & _)|(k & i & m & s1 & E1 & _)]; rewrite E1; split; discriminate || intros [].
  - destruct (destroy_effect h s GD) as [(s1 & E1 & _)|(k & i & m & s1 & E1 & _)]; rewrite E1; split; discriminate || intros [].
  - destruct (aget h (s_api s)) as [a|]; [|split; discriminate || intros []]. destruct (aget h2 (s_api s)) as [b|]; [|split; discriminate || intros []].
    destruct (shared (a_kind a) && eqb (a_kind a) (a_kind b))%bool; [|split; discriminate || intros []].
    destruct (destroy_effect h s GD) as [(s1 & E1 & _)|(k & i & m & s1 & E1 & _)]; rewrite E1; split; discriminate || intros [].
  - destruct (aget h (s_api s)) as [a|]; [split; discriminate || intros []|]. destruct (aget h2 (s_api s)) as [b|]; [|split; discriminate || intros []].
    destruct (shared (a_kind b)); split; discriminate || intros [].
Qed.
Lemma no_dangling_lemma ops zs s k : runs_to ops zs s -> announced k s <> None.
Proof. intros R. rewrite (announced_all s k (reach_good _ _ _ R)). discriminate. Qed.
Lemma announced_lemma ops zs s k i : runs_to ops zs s -> announces_it s k i ->
  exists_as s i k /\ works s i /\ component s k /\ exists h, stands s h k i /\ forall h' k', stands s h' k' i -> h' = h.
Proof.
  intros R A. pose proof (reach_good _ _ _ R) as GD. apply (announces_iff s k i GD) in A. destruct (g_gate s GD k i A) as (m & G & K & RN).
  split; [exists m; auto|]. split; [exists m; auto|]. split.
  - apply component_iff. destruct (gate_there k s) eqn:T; [reflexivity|]. rewrite (g_none s GD k T) in A. destruct A.
  - destruct (g_own s GD i m G) as (h & ST). rewrite K in ST. exists h. split; [exact ST|]. intros h' k' X. exact (g_uni s GD h' h k' k i X ST).
Qed.
Lemma running_lemma ops zs s k i : runs_to ops zs s -> k = QPub \/ k = QSub -> exists_as s i k -> works s i -> announces_it s k i.
Proof.
  intros R K (m & G & KM) (m' & G' & RN). rewrite G in G'. injection G' as <-. pose proof (reach_good _ _ _ R) as GD. apply (announces_iff s k i GD). rewrite <- KM. apply (g_shared s GD i m G RN). destruct K as [-> | ->]; rewrite KM; reflexivity.
Qed.
Lemma created_lemma ops zs s h named s' : runs_to ops zs s -> api_step (OCreate h named) s = Some (1%Z, s') ->
  exists k i, stands s' h k i /\ exists_as s' i k /\ (forall j, exists_as s i j -> False) /\ ~ In i (gone s') /\ (component s k -> works s' i /\ announces_it s' k i).
Proof.
  intros R E. pose proof (reach_good _ _ _ R) as GD. destruct (step_effect _ _ _ _ GD E) as [GD' W].
  cbn [api_step] in E. destruct (api_create h named s) as [[b s1]|] eqn:C; [|discriminate]. injection E as EB <-. destruct b; [|discriminate].
  destruct (create_effect h named s true s1 GD C) as [[X _]|(_ & k & X1 & X2 & X3)]; [discriminate|]. exists k, (s_next s).
  assert (NI : aget (s_next s) (s_impl s1) = Some (Impl k (match k with QSrv => s_manager s | _ => true end) named)) by (rewrite (ma_impl _ _ _ _ _ X2); apply aget_aset_same).
  split; [unfold stands; rewrite (ma_api _ _ _ _ _ X2); apply aget_aset_same|]. split; [eexists; split; [exact NI|reflexivity]|]. split; [intros j (m & G & _); pose proof (g_lt s GD _ m G); lia|].
  split; [rewrite (ma_gone _ _ _ _ _ X2); intros X; pose proof (proj1 (g_dead s GD _ X)); lia|]. intros CO. apply component_iff in CO.
  assert (I1 : In (s_next s) (s_gate s1 k)) by (rewrite (ma_gate _ _ _ _ _ X2), eqb_refl, CO; apply in_or_app; right; left; reflexivity).
  split; [|apply (announces_iff s1 k _ GD'), I1]. destruct (g_gate s1 GD' k _ I1) as (m & G & _ & RN). exists m. auto.
Qed.
Lemma stays_lemma ops zs s h k i o z s' : runs_to ops zs s -> announces_it s k i -> stands s h k i -> api_step o s = Some (z, s') ->
  announces_it s' k i \/ ends o h \/ (o = OLife CFinalize /\ ~ component s' k).
Proof.
  intros R A ST E. pose proof (reach_good _ _ _ R) as GD. destruct (step_effect _ _ _ _ GD E) as [GD' W]. rewrite (announces_iff s k i GD) in A. rewrite (announces_iff s' k i GD'). destruct W as [Q|EQ EN|h' k' named EQ Z1 GA MD|h' k' j m EO ST' G K T].
  - left. rewrite (q_gate _ _ Q). exact A.
  - right. right. split; [exact EQ|]. rewrite component_iff. unfold gate_there. rewrite (en_ctx _ _ EN). discriminate.
  - left. rewrite (ma_gate _ _ _ _ _ MD). destruct (eqb k k' && gate_there k' s)%bool; [apply in_or_app; left|]; exact A.
  - destruct (Nat.eq_dec i j) as [<-|NE].
    + right. left. rewrite (g_uni s GD h h' _ _ i ST ST'). exact EO.
    + left. rewrite (ta_gate _ _ _ _ T). apply filter_In. split; [exact A|]. apply negb_true_iff, Nat.eqb_neq, NE.
Qed.
Lemma given_up_lemma ops zs s h k i o z s' : runs_to ops zs s -> stands s h k i -> o = ODestroy h \/ o = ODelete h -> api_step o s = Some (z, s') ->
  (forall j, ~ exists_as s' i j) /\ (forall j, ~ announces_it s' j i) /\ (forall h' j, ~ stands s' h' j i).
Proof.
  intros R ST O E. pose proof (reach_good _ _ _ R) as GD. destruct (step_effect _ _ _ _ GD E) as [GD' _].
  destruct (destroy_effect h s GD) as [(s1 & _ & _ & X)|(k' & i' & m & s1 & E1 & ST' & G & K & U)]; [exfalso; exact (X k i ST)|].
  assert (EQ : i' = i /\ k' = k) by (unfold stands in ST, ST'; rewrite ST in ST'; injection ST' as <- <-; auto). destruct EQ as [-> ->].
  assert (NI : aget i (s_impl s') = None).
  { destruct O as [-> | ->]; cbn [api_step] in E; rewrite E1 in E; injection E as <- <-; cbn; rewrite (un_impl _ _ _ _ _ _ U), Nat.eqb_refl; reflexivity. }
  split; [intros j (m' & X & _); congruence|]. split.
  - intros j X. apply (announces_iff s' j i GD') in X. destruct (g_gate s' GD' j i X) as (m' & Y & _). congruence.
  - intros h' j X. destruct (g_api s' GD' h' _ X) as [[Y _]|(_ & i'' & m' & Y1 & Y2 & _)]; [discriminate|]. cbn in Y1. injection Y1 as <-. congruence.
Qed.
Lemma gone_step o s z s' : good s -> api_step o s = Some (z, s') -> exists l, gone s' = gone s ++ l.
Proof.
  intros GD E. destruct (step_effect _ _ _ _ GD E) as [GD' W]. destruct W as [Q|EQ EN|h' k' named EQ Z1 GA MD|h' k' j m EO ST' G K T].
  - exists []. rewrite app_nil_r. unfold gone. rewrite (q_out _ _ Q). reflexivity.
  - destruct (en_halts _ _ EN) as (s1 & H & _ & _ & _ & EO). destruct (ha_gone _ _ _ H) as (l & X & _). exists l. rewrite <- X. unfold gone. rewrite EO. reflexivity.
  - exists []. rewrite app_nil_r. apply (ma_gone _ _ _ _ _ MD).
  - eexists. apply (ta_gone _ _ _ _ T).
Qed.
Lemma prov_live s k : good s -> gate_there k s = true -> s_provider s = true.
Proof.
  intros GD T. rewrite (g_prov s GD). unfold there. unfold gate_there in T. destruct (p_ctx (s_life s)) as [g|] eqn:C; [|discriminate]. destruct (g_inited g) eqn:IN; [apply (g_up s GD g C IN)|].
  rewrite (g_new s GD g C IN) in T. discriminate.
Qed.
Lemma withdrawn_step o s z s' k i m : good s -> api_step o s = Some (z, s') -> In i (s_gate s k) -> aget i (s_impl s) = Some m -> 
  (In i (s_gate s' k) /\ aget i (s_impl s') = Some m) \/ In i (gone s') \/ speaks m = false.
Proof.
  intros GD E A GI. destruct (step_effect _ _ _ _ GD E) as [GD' W]. destruct (g_gate s GD k i A) as (m0 & G0 & K0 & R0). rewrite GI in G0. injection G0 as <-.
  assert (P : s_provider s = true). { apply (prov_live s k GD). destruct (gate_there k s) eqn:T; [reflexivity|]. rewrite (g_none s GD k T) in A. destruct A. }
  destruct (speaks m) eqn:SP; [|auto]. destruct W as [Q|EQ EN|h' k' named EQ Z1 GA MD|h' k' j m' EO ST' G K T].
  - left. rewrite (q_gate _ _ Q), (q_impl _ _ Q). auto.
  - right. left. destruct (en_halts _ _ EN) as (s1 & H & _ & _ & _ & EO). destruct (ha_gone _ _ _ H) as (l & X & _ & KL). unfold gone. rewrite EO. fold (gone s1). rewrite X. apply in_or_app. right. apply KL.
    split; [unfold all_gates; rewrite !in_app_iff; destruct k; tauto|]. exists m. auto.
  - left. split; [rewrite (ma_gate _ _ _ _ _ MD); destruct (eqb k k' && gate_there k' s)%bool; [apply in_or_app; left|]; exact A|]. rewrite (ma_impl _ _ _ _ _ MD), aget_aset_other; [exact GI|].
    intros ->. pose proof (g_lt s GD _ m GI). lia.
  - destruct (Nat.eq_dec i j) as [<-|NE].
    + right. left. rewrite (ta_gone _ _ _ _ T). rewrite GI in G. injection G as <-. rewrite R0, SP, P. apply in_or_app. right. left. reflexivity.
    + left. split; [rewrite (ta_gate _ _ _ _ T); apply filter_In; split; [exact A|]; apply negb_true_iff, Nat.eqb_neq, NE|]. rewrite (ta_impl _ _ _ _ T). apply Nat.eqb_neq in NE. rewrite NE. exact GI.
Qed.
Lemma gone_run more : forall s zs s', good s -> api_run more s = Some (zs, s') -> exists l, gone s' = gone s ++ l.
Proof.
  induction more as [|o more IH]; cbn; intros s zs s' GD E; [injection E as <- <-; exists []; rewrite app_nil_r; reflexivity|].
  destruct (api_step o s) as [[z s1]|] eqn:ST; [|discriminate]. destruct (api_run more s1) as [[zs1 s2]|] eqn:RN; [|discriminate]. injection E as <- <-.
  destruct (gone_step o s z s1 GD ST) as (l1 & E1). destruct (step_effect _ _ _ _ GD ST) as [GD1 _]. destruct (IH s1 zs1 s2 GD1 RN) as (l2 & E2). exists (l1 ++ l2). rewrite E2, E1, app_assoc. reflexivity.
Qed.
Lemma withdrawn_run more : forall s zs s' k i m, good s -> api_run more s = Some (zs, s') -> In i (s_gate s k) -> aget i (s_impl s) = Some m -> In i (s_gate s' k) \/ In i (gone s') \/ speaks m = false.
Proof.
  induction more as [|o more IH]; cbn; intros s zs s' k i m GD E A G; [injection E as <- <-; auto|].
  destruct (api_step o s) as [[z s1]|] eqn:ST; [|discriminate]. destruct (api_run more s1) as [[zs1 s2]|] eqn:RN; [|discriminate]. injection E as <- <-.
  destruct (step_effect _ _ _ _ GD ST) as [GD1 _]. destruct (withdrawn_step o s z s1 k i m GD ST A G) as [[X Y]|[X|X]]; [exact (IH s1 zs1 s2 k i m GD1 RN X Y)| |auto].
  right. left. destruct (gone_run more s1 zs1 s2 GD1 RN) as (l & ->). apply in_or_app. auto.
Qed.
Lemma withdrawn_lemma ops zs s more zs' s' k i : runs_to ops zs s -> api_run more s = Some (zs', s') -> announces_it s k i -> ~ announces_it s' k i -> In i (gone s') \/ (k = QCli /\ nameless s i).
Proof.
  intros R E A N. pose proof (reach_good _ _ _ R) as GD. pose proof (run_good more s zs' s' GD E) as GD'. apply (announces_iff s k i GD) in A. rewrite (announces_iff s' k i GD') in N.
  destruct (g_gate s GD k i A) as (m & G & K & _). destruct (withdrawn_run more s zs' s' k i m GD E A G) as [X|[X|X]]; [contradiction|auto|]. right. unfold speaks in X. rewrite K in X. destruct k; try discriminate. split; [reflexivity|]. exists m. auto.
Qed.
Lemma once_lemma ops zs s : runs_to ops zs s -> NoDup (gone s) /\ forall i, In i (gone s) -> ~ works s i /\ forall k, ~ announces_it s k i.
Proof.
  intros R. pose proof (reach_good _ _ _ R) as GD. split; [apply GD|]. intros i X. destruct (g_dead s GD i X) as [_ W]. split; [exact W|]. intros k A. apply (announces_iff s k i GD) in A. destruct (g_gate s GD k i A) as (m & G & _ & RN). apply W. exists m. auto.
Qed.
Lemma never_step o s z s' k i : good s -> api_step o s = Some (z, s') -> i < s_next s -> ~ In i (s_gate s k) -> i < s_next s' /\ ~ In i (s_gate s' k).
Proof.
  intros GD E L N. destruct (step_effect _ _ _ _ GD E) as [GD' W]. destruct W as [Q|EQ EN|h' k' named EQ Z1 GA MD|h' k' j m' EO ST' G K T].
  - rewrite (q_gate _ _ Q), (q_next _ _ Q). auto.
  - destruct (en_halts _ _ EN) as (s1 & H & _ & _ & EN1 & _). rewrite EN1, (ha_next _ _ _ H), (en_gate _ _ EN). auto.
  - rewrite (ma_next _ _ _ _ _ MD), (ma_gate _ _ _ _ _ MD). split; [lia|]. destruct (eqb k k' && gate_there k' s)%bool; [|exact N]. rewrite in_app_iff. intros [X|[X|[]]]; [contradiction|lia].
  - rewrite (ta_next _ _ _ _ T), (ta_gate _ _ _ _ T), filter_In. tauto.
Qed.
Lemma never_run more : forall s zs s' k i, good s -> api_run more s = Some (zs, s') -> i < s_next s -> ~ In i (s_gate s k) -> ~ In i (s_gate s' k).
Proof.
  induction more as [|o more IH]; cbn; intros s zs s' k i GD E L N; [injection E as <- <-; auto|].
  destruct (api_step o s) as [[z s1]|] eqn:ST; [|discriminate]. destruct (api_run more s1) as [[zs1 s2]|] eqn:RN; [|discriminate]. injection E as <- <-.
  destruct (step_effect _ _ _ _ GD ST) as [GD1 _]. destruct (never_step o s z s1 k i GD ST L N) as [L1 N1]. exact (IH s1 zs1 s2 k i GD1 RN L1 N1).
Qed.
Lemma never_lemma ops zs s more zs' s' k i : runs_to ops zs s -> api_run more s = Some (zs', s') -> exists_as s i k -> ~ announces_it s k i -> ~ announces_it s' k i.
Proof.
  intros R E (m & G & _) N. pose proof (reach_good _ _ _ R) as GD. pose proof (run_good more s zs' s' GD E) as GD'. rewrite (announces_iff s k i GD) in N. rewrite (announces_iff s' k i GD').
  exact (never_run more s zs' s' k i GD E (g_lt s GD i m G) N).
Qed.
Lemma final_lemma ops zs s z s' : runs_to ops zs s -> api_step (OLife CFinalize) s = Some (z, s') -> p_ctx (s_life s') = None ->
  (forall k, announced k s' = Some []) /\ (forall i k, exists_as s' i k -> k = QPub \/ k = QSub -> ~ works s' i) /\
  (forall k i, announces_it s k i -> In i (gone s') \/ (k = QCli /\ nameless s i)).
Proof.
  intros R E C. pose proof (reach_good _ _ _ R) as GD. destruct (step_effect _ _ _ _ GD E) as [GD' _].
  assert (GE : forall k, s_gate s' k = []) by (intros k; apply (g_none s' GD'); unfold gate_there; rewrite C; reflexivity).
  split; [intros k; rewrite (announced_all s' k GD'), GE; reflexivity|]. split.
  - intros i k (m & G & KM) K (m' & G' & RN). rewrite G in G'. injection G' as <-. assert (X : In i (s_gate s' (im_kind m))) by (apply (g_shared s' GD' i m G RN); destruct K as [-> | ->]; rewrite KM; reflexivity). rewrite GE in X. destruct X.
  - intros k i A. apply (withdrawn_lemma ops zs s [OLife CFinalize] [z] s' k i R); [cbn [api_run]; rewrite E; reflexivity|exact A|]. rewrite (announces_iff s' k i GD'), GE. intros [].
Qed.
