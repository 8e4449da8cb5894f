From Coq Require Import List Bool Arith Lia.
From Verif Require Import Base ManModel ManSpec.
Import ListNotations.

(** * The table of a manager *)

Lemma man_run_app : forall a b s, man_run s (a ++ b) =
  match man_run s a with Some s' => man_run s' b | None => None end.
Proof.
  induction a as [|m a IH]; intros b s; [reflexivity|]. cbn [man_run app].
  destruct (man_step s m); [apply IH|reflexivity].
Qed.

Lemma man_run_snoc : forall a m s s', man_run s (a ++ [m]) = Some s' ->
  exists s1, man_run s a = Some s1 /\ man_step s1 m = Some s'.
Proof.
  intros a m s s' E. rewrite man_run_app in E. destruct (man_run s a) as [s1|]; [|discriminate].
  exists s1. split; [reflexivity|]. cbn in E. destruct (man_step s1 m); congruence.
Qed.

Record minv (s : manager) : Prop := {
  mi_heap : forall a i p, aget a (mn_heap s) = Some (mkMobj i p) -> p <> PErased ->
            aget a (mn_table s) = Some i;
  mi_table : forall a i, aget a (mn_table s) = Some i ->
             exists p, aget a (mn_heap s) = Some (mkMobj i p) /\ p <> PErased;
  mi_nt : NoDup (keys (mn_table s));
  mi_nh : NoDup (keys (mn_heap s));
  mi_copy : forall t l, aget t (mn_copies s) = Some l ->
            mn_stopped s = true
            /\ forall a i, aget a (mn_heap s) = Some (mkMobj i (PAlive true)) -> In (a, i) l
}.

Lemma minv_init : minv manager_init.
Proof. constructor; cbn; try discriminate; constructor. Qed.

Ltac keyed := repeat match goal with
  | H : context[aget _ (aset _ _ _)] |- _ => rewrite aget_aset in H
  | H : context[aget _ (adel _ _)] |- _ => rewrite aget_adel in H
  | |- context[aget _ (aset _ _ _)] => rewrite aget_aset
  | |- context[aget _ (adel _ _)] => rewrite aget_adel
  | H : context[eqb ?x ?y] |- _ =>
      let E := fresh "E" in destruct (eqb x y) eqn:E;
      [apply eqb_true in E; subst|apply eqb_false in E]
  | |- context[eqb ?x ?y] =>
      let E := fresh "E" in destruct (eqb x y) eqn:E;
      [apply eqb_true in E; subst|apply eqb_false in E]
  end.

Ltac nd := solve [apply nodup_aset; auto | apply nodup_adel; auto].

Lemma minv_phase : forall s a i p q st cps, minv s ->
  aget a (mn_heap s) = Some (mkMobj i p) -> p <> PErased -> q <> PErased -> q <> PAlive true ->
  st = mn_stopped s ->
  (forall t l, aget t cps = Some l -> mn_stopped s = true /\
     forall a' i', aget a' (aset a (mkMobj i q) (mn_heap s)) = Some (mkMobj i' (PAlive true)) -> In (a', i') l) ->
  minv (mkManager st (mn_table s) (aset a (mkMobj i q) (mn_heap s)) (mn_next s) cps).
Proof.
  intros s a i p q st cps V G Np Nq Nr -> C. destruct V as [V1 V2 V3 V4 V5].
  constructor; cbn [mn_table mn_heap mn_stopped mn_copies mn_next]; auto; try nd.
  - intros b j r H N. keyed; [|eauto]. injection H as <- <-. eapply V1; eauto.
  - intros b j H. apply V2 in H as (r & H & N). keyed; [|eauto].
    rewrite G in H. injection H as <- <-. eauto.

Qed.

Lemma minv_step : forall s m s', minv s -> man_step s m = Some s' -> minv s'.
Proof.
  intros s m s' V E. pose proof V as [V1 V2 V3 V4 V5].
  destruct m as [a|a|a|a|t|t|a]; cbn [man_step] in E.
  - destruct (mn_stopped s) eqn:St; [injection E as <-; exact V|].
    destruct (aget a (mn_heap s)) eqn:Ha; [discriminate|].
    assert (Ta : aget a (mn_table s) = None).
    { destruct (aget a (mn_table s)) eqn:T; [|reflexivity]. apply V2 in T as (p & H & _). congruence. }
    rewrite Ta in E. injection E as <-.
    constructor; cbn [mn_table mn_heap mn_stopped mn_copies mn_next]; auto; try nd.
    + intros b j r H N. keyed; [injection H as <- <-; reflexivity|eauto].
    + intros b j H. keyed; [injection H as <-; eexists; split; [reflexivity|discriminate]|eauto].
    + intros t l H. apply V5 in H as [H _]. congruence.
  - destruct (aget a (mn_heap s)) as [[i [r| |]]|] eqn:Ha; try discriminate. injection E as <-.
    eapply minv_phase; eauto; try discriminate.
    intros t l H. destruct (V5 t l H) as [P Q]. split; [exact P|]. intros a' i' G. keyed; [discriminate|auto].
  - destruct (aget a (mn_heap s)) as [[i [r| |]]|] eqn:Ha; try discriminate. injection E as <-.
    constructor; cbn [mn_table mn_heap mn_stopped mn_copies mn_next]; auto; try nd.
    + intros b j r H N. keyed; [injection H as <- <-; congruence|eauto].
    + intros b j H. keyed; [discriminate|]. eauto.
    + intros t l H. destruct (V5 t l H) as [P Q]. split; [exact P|]. intros a' i' G. keyed; [discriminate|auto].
  - destruct (aget a (mn_heap s)) as [[i [r| |]]|] eqn:Ha; try discriminate. injection E as <-.
    constructor; cbn [mn_table mn_heap mn_stopped mn_copies mn_next]; auto; try nd.
    + intros b j r H N. keyed; [discriminate|eauto].
    + intros b j H. apply V2 in H as (r & H & N). keyed; [|eauto]. rewrite Ha in H. injection H as <- <-. congruence.
    + intros t l H. destruct (V5 t l H) as [P Q]. split; [exact P|]. intros a' i' G. keyed; [discriminate|auto].
  - destruct (aget t (mn_copies s)) eqn:Ct; [discriminate|]. injection E as <-.
    constructor; cbn [mn_table mn_heap mn_stopped mn_copies mn_next]; auto.
    intros u l H. split; [reflexivity|]. intros a' i' G. keyed.
    + injection H as <-. apply aget_in. eapply V1; eauto. discriminate.
    + destruct (V5 u l H) as [_ Q]. auto.
  - destruct (aget t (mn_copies s)) as [[|[a i] r]|] eqn:Ct; try discriminate. injection E as <-.
    destruct (V5 t _ Ct) as [St Q].
    destruct (aget a (mn_heap s)) as [[j [b| |]]|] eqn:Ha.
    + destruct (Nat.eqb_spec i j) as [<-|Nij].
      * eapply minv_phase; eauto; try discriminate.
        intros u l H. split; [exact St|]. intros a' i' G. keyed; try discriminate.
        -- injection H as <-. destruct (Q a' i' G) as [F|F]; [congruence|exact F].
        -- destruct (V5 u l H) as [_ Q']. auto.
      * constructor; cbn [mn_table mn_heap mn_stopped mn_copies mn_next]; auto.
        intros u l H. split; [exact St|]. intros a' i' G. keyed.
        -- injection H as <-. destruct (Q a' i' G) as [F|F]; [congruence|exact F].
        -- destruct (V5 u l H) as [_ Q']. auto.
    + constructor; cbn [mn_table mn_heap mn_stopped mn_copies mn_next]; auto.
      intros u l H. split; [exact St|]. intros a' i' G. keyed.
      * injection H as <-. destruct (Q a' i' G) as [F|F]; [congruence|exact F].
      * destruct (V5 u l H) as [_ Q']. auto.
    + constructor; cbn [mn_table mn_heap mn_stopped mn_copies mn_next]; auto.
      intros u l H. split; [exact St|]. intros a' i' G. keyed.
      * injection H as <-. destruct (Q a' i' G) as [F|F]; [congruence|exact F].
      * destruct (V5 u l H) as [_ Q']. auto.
    + constructor; cbn [mn_table mn_heap mn_stopped mn_copies mn_next]; auto.
      intros u l H. split; [exact St|]. intros a' i' G. keyed.
      * injection H as <-. destruct (Q a' i' G) as [F|F]; [congruence|exact F].
      * destruct (V5 u l H) as [_ Q']. auto.
  - destruct (aget a (mn_heap s)) as [[i [r| |]]|] eqn:Ha; try discriminate. injection E as <-.
    eapply minv_phase; eauto; try discriminate.
    intros t l H. destruct (V5 t l H) as [P Q]. split; [exact P|]. intros a' i' G. keyed; [discriminate|auto].
Qed.

Lemma minv_run : forall ms s, man_run manager_init ms = Some s -> minv s.
Proof.
  induction ms as [|m ms IH] using rev_ind; intros s E.
  - injection E as <-. apply minv_init.
  - apply man_run_snoc in E as (s1 & E1 & E2). eapply minv_step; eauto.
Qed.

Theorem listed_lemma : forall ms s a i, man_run manager_init ms = Some s ->
  (aget a (mn_table s) = Some i <-> (exists r, alive_at s a i r) \/ dying_at s a i).
Proof.
  intros ms s a i E. apply minv_run in E as [V1 V2 _ _ _]. unfold alive_at, dying_at. split.
  - intro H. apply V2 in H as (p & H & N). destruct p as [r| |]; eauto. congruence.
  - intros [[r H]|H]; eapply V1; eauto; discriminate.
Qed.

Theorem count_lemma : forall ms s, man_run manager_init ms = Some s ->
  man_count s = length (filter (fun e => match ob_phase (snd e) with PErased => false | _ => true end) (mn_heap s)).
Proof.
  intros ms s E. apply minv_run in E as [V1 V2 V3 V4 _]. unfold man_count.
  set (f := fun e : addr * mobj => match ob_phase (snd e) with PErased => false | _ => true end).
  rewrite <- (map_length fst (mn_table s)). rewrite <- (map_length fst (filter f (mn_heap s))).
  assert (N2 : NoDup (map fst (filter f (mn_heap s)))) by (apply nodup_map_filter, V4).
  apply Nat.le_antisymm; apply NoDup_incl_length; auto.
  - intros a Ha. fold (keys (mn_table s)) in Ha.
    destruct (aget a (mn_table s)) as [i|] eqn:T; [|exfalso; apply aget_none in T; auto].
    apply V2 in T as (p & H & N). apply in_map_iff. exists (a, mkMobj i p). split; [reflexivity|].
    apply filter_In. split; [apply aget_in, H|]. unfold f. cbn. destruct p; congruence.
  - intros a Ha. apply in_map_iff in Ha as ([a' [i p]] & <- & H). apply filter_In in H as [H Hf].
    apply in_aget in H; [|exact V4]. cbn [fst]. eapply aget_in_keys. eapply V1; [exact H|].
    intros ->. unfold f in Hf. cbn in Hf. discriminate.
Qed.

Theorem stopped_lemma : forall ms s t, man_run manager_init ms = Some s -> stop_done s t ->
  forall a i r, alive_at s a i r -> r = false.
Proof.
  intros ms s t E D a i r H. apply minv_run in E as [_ _ _ _ V5].
  destruct (V5 t [] D) as [_ Q]. destruct r; [|reflexivity]. destruct (Q a i H).
Qed.

Lemma man_next_step : forall m s s', man_step s m = Some s' -> mn_stopped s = true ->
  mn_stopped s' = true /\ mn_next s' = mn_next s.
Proof.
  intros m s s' E H. destruct m; cbn [man_step] in E; try rewrite H in E;
  repeat match type of E with
  | context[match ?x with _ => _ end] => destruct x eqn:?
  end; try discriminate; injection E as <-; cbn; auto.
Qed.

Theorem no_new_lemma : forall before t after s1 s, man_run manager_init (before ++ [NStopMark t]) = Some s1 ->
  man_run s1 after = Some s -> mn_next s = mn_next s1.
Proof.
  intros before t after s1 s E1 E2.
  assert (St : mn_stopped s1 = true).
  { apply man_run_snoc in E1 as (s0 & _ & E). cbn in E. destruct (aget t (mn_copies s0)); [discriminate|].
    injection E as <-. reflexivity. }
  clear E1. revert s1 St E2. induction after as [|m after IH]; intros s1 St E2.
  - injection E2 as <-. reflexivity.
  - cbn [man_run] in E2. destruct (man_step s1 m) as [s2|] eqn:Em; [|discriminate].
    destruct (man_next_step _ _ _ Em St) as [St2 N]. rewrite <- N. eapply IH; eauto.
Qed.

(** * ServiceManager *)

Lemma sw_run_app : forall a b s, sw_run s (a ++ b) =
  match sw_run s a with Some s' => sw_run s' b | None => None end.
Proof.
  induction a as [|m a IH]; intros b s; [reflexivity|]. cbn [sw_run app].
  destruct (sw_step s m); [apply IH|reflexivity].
Qed.

Lemma sw_run_snoc : forall a m s s', sw_run s (a ++ [m]) = Some s' ->
  exists s1, sw_run s a = Some s1 /\ sw_step s1 m = Some s'.
Proof.
  intros a m s s' E. rewrite sw_run_app in E. destruct (sw_run s a) as [s1|]; [|discriminate].
  exists s1. split; [reflexivity|]. cbn in E. destruct (sw_step s1 m); congruence.
Qed.

Record sinv (s : service_manager) : Prop := {
  si_lock : forall t, sw_lock s = Some t <-> exists io, aget t (sw_threads s) = Some (io, TJoins);
  si_join : sw_lock s <> None -> sw_stopped s = true /\ sw_closing s = true;
  si_off : sw_stopped s = true -> sw_lock s = None -> sw_exists s = false;
  si_sess : sw_sessions s <> 0 -> sw_exists s = true /\ sw_closing s = false;
  si_io : sw_exists s = false -> forall t p, aget t (sw_threads s) = Some (true, p) -> p = TFree;
  si_up : sw_exists s = true -> sw_lock s = None -> sw_closing s = false;
  si_nd : NoDup (keys (sw_threads s))
}.

Lemma aget_map_pair : forall (f : nat * (bool * tpos) -> nat * (bool * tpos)) ts t,
  (forall e, fst (f e) = fst e) ->
  aget t (map f ts) = match aget t ts with Some v => Some (snd (f (t, v))) | None => None end.
Proof.
  intros f ts t K. induction ts as [|[u v] ts IH]; [reflexivity|].
  cbn [map aget]. specialize (K (u, v)). destruct (f (u, v)) as [u' v'] eqn:F. cbn in K. subst u'.
  destruct (eqb t u) eqn:E; [|exact IH].
  apply eqb_true in E. subst. rewrite F. reflexivity.
Qed.

Lemma fresh_get : forall ts t, aget t (io_fresh ts) =
  match aget t ts with Some (true, _) => Some (true, TFree) | o => o end.
Proof.
  intros ts t. unfold io_fresh. rewrite aget_map_pair by (intros [u [[|] p]]; reflexivity).
  destruct (aget t ts) as [[[|] p]|]; reflexivity.
Qed.

Lemma fresh_keys : forall ts, keys (io_fresh ts) = keys ts.
Proof.
  intro ts. unfold keys, io_fresh. rewrite map_map. apply map_ext. intros [u [[|] p]]; reflexivity.
Qed.

Lemma init_get : forall n t io p, aget t (sw_threads (sw_init n)) = Some (io, p) -> p = TFree.
Proof.
  intros n t io p H. apply aget_in in H. unfold sw_init in H. cbn [sw_threads] in H.
  apply in_map_iff in H as (u & E & _). congruence.
Qed.

Lemma sinv_init : forall n, sinv (sw_init n).
Proof.
  intro n. constructor; cbn [sw_init sw_lock sw_stopped sw_closing sw_exists sw_sessions]; try discriminate; try congruence.
  - intro t. split; [discriminate|]. intros [io H]. apply init_get in H. discriminate.
  - intros _ t p H. eapply init_get; eauto.
  - unfold sw_init. cbn [sw_threads]. unfold keys. rewrite map_map. cbn [fst]. rewrite map_id. apply seq_NoDup.
Qed.

Lemma lock_put : forall s t io p q, sinv s -> aget t (sw_threads s) = Some (io, p) ->
  p <> TJoins -> q <> TJoins ->
  forall u, sw_lock s = Some u <-> exists io', aget u (aset t (io, q) (sw_threads s)) = Some (io', TJoins).
Proof.
  intros s t io p q V G Np Nq u. rewrite (si_lock s V u). split; intros [io' H]; exists io'; keyed; auto; congruence.
Qed.

Lemma sinv_step : forall s m s', sinv s -> sw_step s m = Some s' -> sinv s'.
Proof.
  intros s m s' V E. pose proof V as [V1 V2 V3 V4 V5 V6 V7].
  destruct m as [t|t|t| |t|t|t|t|]; cbn [sw_step] in E.
  - destruct (aget t (sw_threads s)) as [[io [| | | |]]|] eqn:G; try discriminate.
    destruct (io && negb (sw_exists s)) eqn:B; [discriminate|].
    destruct (sw_stopped s) eqn:St; injection E as <-; [exact V|].
    constructor; cbn [sw_lock sw_stopped sw_closing sw_exists sw_sessions sw_threads]; unfold put; auto; try nd.
    + eapply lock_put; eauto; discriminate.
    + intros X u p H. keyed; [|eauto]. injection H as -> <-. rewrite X in B. discriminate.
  - destruct (aget t (sw_threads s)) as [[io [| | | |]]|] eqn:G; try discriminate.
    unfold free_lock in E. destruct (sw_lock s) eqn:L; [discriminate|].
    assert (LP := lock_put s t io TPassed TFree V G ltac:(discriminate) ltac:(discriminate)). rewrite L in LP.
    destruct (sw_stopped s) eqn:St; injection E as <-;
    constructor; cbn [sw_lock sw_stopped sw_closing sw_exists sw_sessions sw_threads]; unfold put; auto; try nd; try congruence.
    + intros X u p H. keyed; [|eauto]. congruence.
    + intro X. apply V4 in X as [-> ->]. auto.
    + destruct (sw_exists s); auto.
  - destruct (aget t (sw_threads s)) as [[io [| | | |]]|] eqn:G; try discriminate.
    destruct (sw_exists s && negb (sw_closing s)) eqn:B; injection E as <-; [|exact V].
    apply andb_prop in B as [B1 B2]. apply negb_true_iff in B2.
    constructor; cbn [sw_lock sw_stopped sw_closing sw_exists sw_sessions sw_threads]; auto.
  - destruct (sw_sessions s) eqn:N; [discriminate|]. injection E as <-.
    constructor; cbn [sw_lock sw_stopped sw_closing sw_exists sw_sessions sw_threads]; auto.
  - destruct (aget t (sw_threads s)) as [[io [| | | |]]|] eqn:G; try discriminate.
    destruct (io && negb (sw_exists s)) eqn:B; [discriminate|]. injection E as <-.
    constructor; cbn [sw_lock sw_stopped sw_closing sw_exists sw_sessions sw_threads]; unfold put; auto; try nd.
    + eapply lock_put; eauto; discriminate.
    + intros X u p H. keyed; [|eauto]. injection H as -> <-. rewrite X in B. discriminate.
  - destruct (aget t (sw_threads s)) as [[io [| | | |]]|] eqn:G; try discriminate.
    unfold free_lock in E. destruct (sw_lock s) eqn:L; [discriminate|]. injection E as <-.
    constructor; cbn [sw_lock sw_stopped sw_closing sw_exists sw_sessions sw_threads]; unfold put; auto; try nd; try congruence.
    + intro u. split.
      * intros [= <-]. exists io. rewrite aget_aset, eqb_refl. reflexivity.
      * intros [io' H]. keyed; [reflexivity|]. exfalso.
        assert (@None nat = Some u) by (apply V1; eauto). discriminate.
    + intros X u p H. keyed; [|eauto]. injection H as -> <-.
      specialize (V5 X t TWants G). discriminate.
  - destruct (aget t (sw_threads s)) as [[[|] [| | | |]]|] eqn:G; try discriminate.
    destruct (sw_exists s && sw_closing s) eqn:B; [|discriminate]. injection E as <-.
    apply andb_prop in B as [B1 B2].
    constructor; cbn [sw_lock sw_stopped sw_closing sw_exists sw_sessions sw_threads]; unfold put; auto; try nd; try congruence.
    + eapply lock_put; eauto; discriminate.
  - destruct (aget t (sw_threads s)) as [[io [| | | |]]|] eqn:G; try discriminate.
    destruct (negb (sw_exists s) || io_exited (sw_threads s)) eqn:B; [|discriminate]. injection E as <-.
    assert (L : sw_lock s = Some t) by (apply V1; eauto).
    destruct (V2 ltac:(congruence)) as [St Cl].
    assert (Z : sw_sessions s = 0).
    { destruct (sw_sessions s); [reflexivity|]. destruct (V4 ltac:(discriminate)). congruence. }
    constructor; cbn [sw_lock sw_stopped sw_closing sw_exists sw_sessions sw_threads]; unfold put; auto; try congruence.
    + intro u. split; [discriminate|]. intros [io' H]. rewrite fresh_get in H. keyed.
      * destruct io; discriminate.
      * destruct (aget u (sw_threads s)) as [[[|] p]|] eqn:Gu; try discriminate.
        injection H as <- ->. assert (sw_lock s = Some u) by (apply V1; eauto). congruence.
    + intros _ u p H. rewrite fresh_get in H.
      destruct (aget u _) as [[[|] q]|] in H; congruence.
    + rewrite fresh_keys. apply nodup_aset, V7.
  - unfold free_lock in E. destruct (sw_lock s) eqn:L; [discriminate|]. injection E as <-.
    constructor; cbn [sw_lock sw_stopped sw_closing sw_exists sw_sessions sw_threads]; auto; congruence.
Qed.

Lemma sinv_run : forall n ms s, sw_run (sw_init n) ms = Some s -> sinv s.
Proof.
  intros n. induction ms as [|m ms IH] using rev_ind; intros s E.
  - injection E as <-. apply sinv_init.
  - apply sw_run_snoc in E as (s1 & E1 & E2). eapply sinv_step; eauto.
Qed.

Theorem quiet_lemma : forall n before t after s,
  sw_run (sw_init n) (before ++ SDone t :: after) = Some s -> ~ In SReset after ->
  sw_exists s = false /\ sw_sessions s = 0.
Proof.
  intros n before t after s E N.
  assert (K : sw_stopped s = true /\ sw_exists s = false).
  { revert s E N. induction after as [|m after IH] using rev_ind; intros s E N.
    - change (before ++ [SDone t]) with (before ++ [SDone t]) in E.
      apply sw_run_snoc in E as (s1 & E1 & E2). pose proof (sinv_run _ _ _ E1) as V.
      cbn [sw_step] in E2. destruct (aget t (sw_threads s1)) as [[io [| | | |]]|] eqn:G; try discriminate.
      destruct (negb _ || _); [|discriminate]. injection E2 as <-. cbn. split; [|reflexivity].
      apply (si_join s1 V). assert (sw_lock s1 = Some t) by (apply (si_lock s1 V); eauto). congruence.
    - rewrite app_comm_cons, app_assoc in E. apply sw_run_snoc in E as (s1 & E1 & E2).
      destruct (IH s1 E1) as [A B].
      { intro F. apply N, in_or_app. auto. }
      assert (Nm : m <> SReset) by (intros ->; apply N, in_or_app; right; left; reflexivity).
      destruct m; try congruence; cbn [sw_step] in E2; try rewrite A in E2; try rewrite B in E2;
      repeat match type of E2 with
      | context[match ?x with _ => _ end] => destruct x eqn:?
      end; try discriminate; injection E2 as <-; cbn; auto. }
  destruct K as [K1 K2]. split; [exact K2|].
  pose proof (sinv_run _ _ _ E) as V. destruct (sw_sessions s) eqn:Z; [reflexivity|].
  destruct (si_sess s V) as [F _]; [rewrite Z; discriminate|congruence].
Qed.

(** stuck if an io thread waits for the mutex *)
Definition blocked_by (s : service_manager) (t u : nat) : Prop :=
  sw_lock s = Some t /\ sw_exists s = true
  /\ (exists io, aget t (sw_threads s) = Some (io, TJoins))
  /\ exists p, aget u (sw_threads s) = Some (true, p) /\ p <> TFree /\ p <> TExited.

Lemma io_exited_spec : forall ts, NoDup (keys ts) ->
  (io_exited ts = true <-> forall t p, aget t ts = Some (true, p) -> p = TExited).
Proof.
  intros ts N. unfold io_exited. rewrite forallb_forall. split.
  - intros H t p G. apply aget_in, H in G. destruct p; congruence.
  - intros H [t [[|] p]] G; [|reflexivity]. apply in_aget in G; [|exact N]. rewrite (H t p G). reflexivity.
Qed.

Lemma blocked_step : forall s m s' t u, sinv s -> blocked_by s t u -> sw_step s m = Some s' ->
  blocked_by s' t u /\ m <> SDone t.
Proof.
  intros s m s' t u V (L & X & [io T] & p & U & P1 & P2) E.
  assert (ND : forall v, m = SDone v -> False).
  { intros v ->. cbn [sw_step] in E.
    destruct (aget v (sw_threads s)) as [[io' [| | | |]]|] eqn:G; try discriminate.
    rewrite X in E. cbn [negb orb] in E. destruct (io_exited (sw_threads s)) eqn:F; [|discriminate].
    apply (proj1 (io_exited_spec _ (si_nd s V))) with (t := u) (p := p) in F; auto. }
  split; [|intros ->; eapply ND; eauto].
  assert (Keep : forall v q, aget v (sw_threads s) = Some q ->
            v <> t -> v <> u -> forall w, blocked_by (mkSm (sw_stopped s) (Some t) true (sw_closing s) (sw_sessions s)
              (aset v w (sw_threads s))) t u).
  { intros v q G N1 N2 w. split; [reflexivity|]. split; [reflexivity|]. cbn [sw_threads]. split.
    - exists io. rewrite aget_aset_other; auto.
    - exists p. rewrite aget_aset_other; auto. }
  destruct m as [v|v|v| |v|v|v|v|]; cbn [sw_step] in E; unfold free_lock in E; rewrite ?L, ?X in E.
  - destruct (aget v (sw_threads s)) as [[io' [| | | |]]|] eqn:G; try discriminate.
    destruct (io' && negb true); [discriminate|].
    destruct (sw_stopped s) eqn:St; injection E as <-.
    + split; [exact L|]. split; [exact X|]. split; [exists io; exact T|exists p; auto].
    + eapply Keep; eauto; intros ->; congruence.
  - destruct (aget v (sw_threads s)) as [[io' [| | | |]]|]; discriminate.
  - destruct (aget v (sw_threads s)) as [[io' [| | | |]]|] eqn:G; try discriminate.
    destruct (true && negb (sw_closing s)); injection E as <-; (split; [cbn; auto|]); (split; [cbn; auto|]); (split; [exists io; exact T|exists p; auto]).
  - destruct (sw_sessions s); [discriminate|]. injection E as <-. (split; [cbn; auto|]); (split; [cbn; auto|]); (split; [exists io; exact T|exists p; auto]).
  - destruct (aget v (sw_threads s)) as [[io' [| | | |]]|] eqn:G; try discriminate.
    destruct (io' && negb true); [discriminate|]. injection E as <-.
    eapply Keep; eauto; intros ->; congruence.
  - destruct (aget v (sw_threads s)) as [[io' [| | | |]]|]; discriminate.
  - destruct (aget v (sw_threads s)) as [[[|] [| | | |]]|] eqn:G; try discriminate.
    destruct (true && sw_closing s); [|discriminate]. injection E as <-.
    eapply Keep; eauto; intros ->; congruence.
  - exfalso. eapply ND. reflexivity.
  - discriminate.
Qed.

Lemma blocked_run : forall ms s s' t u, sinv s -> blocked_by s t u -> sw_run s ms = Some s' ->
  blocked_by s' t u /\ ~ In (SDone t) ms.
Proof.
  induction ms as [|m ms IH]; intros s s' t u V B E.
  - injection E as <-. auto.
  - cbn [sw_run] in E. destruct (sw_step s m) as [s1|] eqn:Em; [|discriminate].
    destruct (blocked_step _ _ _ _ _ V B Em) as [B1 N].
    destruct (IH s1 s' t u (sinv_step _ _ _ V Em) B1 E) as [B2 N2].
    split; [exact B2|]. intros [F|F]; auto.
Qed.

(** the io threads that are not hindered can exit one after the other *)
Fixpoint awake (ts : list (nat * (bool * tpos))) : nat :=
  match ts with
  | [] => 0
  | (_, (true, TFree)) :: r => S (awake r)
  | _ :: r => awake r
  end.

Lemma awake_none : forall ts, awake ts = 0 -> forall t, In (t, (true, TFree)) ts -> False.
Proof.
  induction ts as [|[u [[|] p]] ts IH]; intros A t H; [destruct H| |].
  - destruct H as [H|H]; [injection H as -> ->; discriminate|]. destruct p; cbn in A; eauto. discriminate.
  - destruct H as [H|H]; [discriminate|]. cbn in A. eauto.
Qed.

Lemma awake_some : forall ts, awake ts <> 0 -> exists t, In (t, (true, TFree)) ts.
Proof.
  induction ts as [|[u [[|] p]] ts IH]; intro A; [cbn in A; congruence| |].
  - destruct p; try (destruct (IH A) as [t H]; exists t; right; exact H). exists u. left. reflexivity.
  - destruct (IH A) as [t H]. exists t. right. exact H.
Qed.

Lemma awake_set : forall ts t, NoDup (keys ts) -> aget t ts = Some (true, TFree) ->
  S (awake (aset t (true, TExited) ts)) = awake ts.
Proof.
  induction ts as [|[u v] ts IH]; intros t N G; [discriminate|].
  cbn [aget] in G. cbn [aset]. destruct (eqb t u) eqn:E.
  - injection G as ->. reflexivity.
  - inversion N; subst. specialize (IH t H2 G).
    destruct v as [[|] [| | | |]]; cbn [awake]; lia.
Qed.

Lemma exits : forall k s t, awake (sw_threads s) = k -> sinv s -> sw_lock s = Some t ->
  sw_exists s = true -> unhindered s ->
  exists ms s', sw_run s ms = Some s' /\ In (SDone t) ms /\ length ms = S k.
Proof.
  induction k as [|k IH]; intros s t A V L X U.
  - destruct (proj1 (si_lock s V t) L) as [io T].
    assert (F : io_exited (sw_threads s) = true).
    { apply io_exited_spec; [apply (si_nd s V)|]. intros u p G. destruct (U u p G) as [-> | ->]; [|reflexivity].
      exfalso. eapply awake_none; [exact A|]. apply aget_in. exact G. }
    exists [SDone t]. eexists. split; [|split; [left; reflexivity|reflexivity]].
    cbn [sw_run sw_step]. rewrite T, F, orb_true_r. reflexivity.
  - destruct (awake_some (sw_threads s)) as [u G]; [lia|].
    apply in_aget in G; [|apply (si_nd s V)].
    destruct (si_join s V ltac:(congruence)) as [St Cl].
    set (s1 := mkSm (sw_stopped s) (sw_lock s) (sw_exists s) (sw_closing s) (sw_sessions s) (put s u true TExited)).
    assert (E : sw_step s (IExit u) = Some s1).
    { cbn [sw_step]. rewrite G, X, Cl. subst s1. rewrite X, Cl. reflexivity. }
    destruct (IH s1 t) as (ms & s' & R & I1 & Len).
    + subst s1. cbn [sw_threads]. unfold put. pose proof (awake_set _ _ (si_nd s V) G). lia.
    + eapply sinv_step; eauto.
    + exact L.
    + exact X.
    + intros v p H. subst s1. cbn [sw_threads] in H. unfold put in H. keyed; [injection H as <-; auto|eauto].
    + exists (IExit u :: ms), s'. split; [|split; [right; exact I1|cbn; lia]].
      cbn [sw_run]. rewrite E. exact R.
Qed.

Theorem finish_lemma : forall n ms s t, sw_run (sw_init n) ms = Some s -> at_pos s t TJoins ->
  ((exists more s', sw_run s more = Some s' /\ In (SDone t) more)
   <-> sw_exists s = false \/ unhindered s).
Proof.
  intros n ms s t E [io T]. pose proof (sinv_run _ _ _ E) as V.
  assert (L : sw_lock s = Some t) by (apply (si_lock s V); eauto). split.
  - intros (more & s' & R & I1). destruct (sw_exists s) eqn:X; [|auto]. right.
    intros u p G.
    destruct p; auto; exfalso;
      (eapply (blocked_run more s s' t u V); [|exact R|exact I1];
       split; [exact L|]; split; [exact X|]; split; [eauto|]; eexists; split; [exact G|]; split; discriminate).
  - intros [X|U].
    + exists [SDone t]. eexists. split; [|left; reflexivity]. cbn [sw_run sw_step]. rewrite T, X. reflexivity.
    + destruct (sw_exists s) eqn:X.
      * destruct (exits _ s t eq_refl V L X U) as (more & s' & R & I1 & _). eauto.
      * exists [SDone t]. eexists. split; [|left; reflexivity]. cbn [sw_run sw_step]. rewrite T, X. reflexivity.
Qed.

Theorem deadlock_lemma : forall n ms s t u p, sw_run (sw_init n) ms = Some s -> at_pos s t TJoins ->
  sw_exists s = true -> aget u (sw_threads s) = Some (true, p) -> p = TPassed \/ p = TWants \/ p = TJoins ->
  forall more s', sw_run s more = Some s' -> at_pos s' t TJoins /\ sw_lock s' = Some t.
Proof.
  intros n ms s t u p E [io T] X G P more s' R. pose proof (sinv_run _ _ _ E) as V.
  assert (L : sw_lock s = Some t) by (apply (si_lock s V); eauto).
  assert (B : blocked_by s t u).
  { split; [exact L|]. split; [exact X|]. split; [eauto|]. exists p. split; [exact G|].
    destruct P as [-> | [-> | ->]]; split; discriminate. }
  destruct (blocked_run more s s' t u V B R) as [(L' & _ & T' & _) _]. split; assumption.
Qed.

(** * Acceptor *)

Lemma ac_run_app : forall a b s, ac_run s (a ++ b) =
  match ac_run s a with Some s' => ac_run s' b | None => None end.
Proof.
  induction a as [|m a IH]; intros b s; [reflexivity|]. cbn [ac_run app].
  destruct (ac_step s m); [apply IH|reflexivity].
Qed.

Lemma rem_in : forall i j l, In j (rem i l) <-> j <> i /\ In j l.
Proof.
  intros i j l. unfold rem. rewrite filter_In, negb_true_iff, Nat.eqb_neq. intuition congruence.
Qed.

Lemma ac_incl_step : forall m s s', ac_step s m = Some s' -> incl (ac_running s) (ac_list s) ->
  incl (ac_running s') (ac_list s').
Proof.
  intros m s s' E H. destruct m; cbn [ac_step] in E;
  repeat match type of E with
  | context[match ?x with _ => _ end] => destruct x eqn:?
  end; try discriminate; injection E as <-; cbn; auto.
  - intros x Hx. apply in_app_or in Hx as [Hx|Hx]; apply in_or_app; auto.
  - intros x Hx. apply filter_In in Hx as [Hx _]. auto.
  - intros x Hx. apply rem_in in Hx as [N Hx]. apply rem_in. auto.
Qed.

Lemma ac_incl_run : forall ms s s', ac_run s ms = Some s' -> incl (ac_running s) (ac_list s) ->
  incl (ac_running s') (ac_list s').
Proof.
  induction ms as [|m ms IH]; intros s s' E H; [injection E as <-; exact H|].
  cbn [ac_run] in E. destruct (ac_step s m) eqn:Em; [|discriminate]. eapply IH; eauto using ac_incl_step.
Qed.

(** closed: at most the connection that was ready appears later *)
Definition closed_with (r : option nat) (s : acceptor) : Prop :=
  ac_open s = false /\ (ac_ready s = None \/ ac_ready s = r).

Lemma closed_step : forall m s s' r, ac_step s m = Some s' -> closed_with r s ->
  closed_with r s' /\ forall j, In j (ac_running s') -> In j (ac_running s) \/ r = Some j.
Proof.
  intros m s s' r E [C1 C2]. unfold closed_with.
  destruct m; cbn [ac_step] in E; rewrite ?C1 in E; cbn [andb] in E;
  repeat match type of E with
  | context[match ?x with _ => _ end] => destruct x eqn:?
  end; try discriminate; injection E as <-; cbn; repeat split; auto.
  - intros j Hj. apply in_app_or in Hj as [Hj|[<-|[]]]; [auto|]. destruct C2; [discriminate|auto].
  - intros j Hj. apply filter_In in Hj as [Hj _]. auto.
  - intros j Hj. apply rem_in in Hj as [_ Hj]. auto.
Qed.

Lemma closed_run : forall ms s s' r, ac_run s ms = Some s' -> closed_with r s ->
  closed_with r s' /\ forall j, In j (ac_running s') -> In j (ac_running s) \/ r = Some j.
Proof.
  induction ms as [|m ms IH]; intros s s' r E C; [injection E as <-; auto|].
  cbn [ac_run] in E. destruct (ac_step s m) eqn:Em; [|discriminate].
  destruct (closed_step _ _ _ _ Em C) as [C1 H1]. destruct (IH _ _ _ E C1) as [C2 H2].
  split; [exact C2|]. intros j Hj. destruct (H2 j Hj) as [H|H]; auto.
Qed.

(** an open acceptor waits for the next client, a closed one does not *)
Definition wakeful (s : acceptor) : Prop := ac_waiting s = (ac_open s && match ac_ready s with None => true | Some _ => false end)%bool.

Lemma wakeful_run : forall ms s s', ac_run s ms = Some s' -> wakeful s -> wakeful s'.
Proof.
  induction ms as [|m ms IH]; intros s s' E W; [injection E as <-; exact W|].
  cbn [ac_run] in E. destruct (ac_step s m) as [s1|] eqn:Em; [|discriminate]. apply (IH s1 s' E). clear E IH. unfold wakeful in *.
  destruct m; cbn [ac_step] in Em;
  repeat match type of Em with context[match ?x with _ => _ end] => destruct x eqn:? end; try discriminate; injection Em as <-; cbn in *; auto.
  - destruct (ac_open s); reflexivity.
  - destruct (ac_open s); reflexivity.
Qed.

Lemma open_run : forall ms s s', ac_run s ms = Some s' -> ac_open s = true -> ~ In AClose ms -> ac_open s' = true.
Proof.
  induction ms as [|m ms IH]; intros s s' E O N; [injection E as <-; exact O|].
  cbn [ac_run] in E. destruct (ac_step s m) as [s1|] eqn:Em; [|discriminate].
  apply (IH s1 s' E); [|intro H; apply N; right; exact H].
  destruct m; cbn [ac_step] in Em;
  repeat match type of Em with context[match ?x with _ => _ end] => destruct x eqn:? end; try discriminate; injection Em as <-; cbn; auto.
  destruct N. left. reflexivity.
Qed.

Theorem next_client_lemma : forall ms s i, ac_run acceptor_init ms = Some s -> ~ In AClose ms -> ac_ready s = None ->
  ~ In i (ac_running s) -> exists s', ac_run s [AConnect i; AHandle] = Some s' /\ In i (ac_running s').
Proof.
  intros ms s i E N R H. pose proof (open_run _ _ _ E eq_refl N) as O.
  assert (W : wakeful s) by (apply (wakeful_run _ _ _ E); reflexivity). unfold wakeful in W. rewrite O, R in W. cbn in W.
  cbn [ac_run ac_step]. rewrite O, W.
  assert (existsb (Nat.eqb i) (ac_running s) = false) as ->.
  { destruct (existsb (Nat.eqb i) (ac_running s)) eqn:X; [|reflexivity]. apply existsb_exists in X as (j & Hj & X). apply Nat.eqb_eq in X. subst j. contradiction. }
  cbn. eexists. split; [reflexivity|]. cbn. apply in_or_app. right. left. reflexivity.
Qed.

Theorem closed_waits_lemma : forall ms s, ac_run acceptor_init ms = Some s -> ac_waiting s = true -> ac_open s = true.
Proof.
  intros ms s E H. assert (W : wakeful s) by (apply (wakeful_run _ _ _ E); reflexivity). unfold wakeful in W. rewrite H in W.
  symmetry in W. apply andb_true_iff in W as [W _]. exact W.
Qed.

Theorem accept_lemma : forall before mid after s0 s,
  ac_run acceptor_init before = Some s0 ->
  ac_run s0 (AClose :: mid ++ AStopAll :: after) = Some s ->
  forall i, In i (ac_running s) -> ac_ready s0 = Some i.
Proof.
  intros before mid after s0 s E0 E i Hi. cbn [ac_run ac_step] in E. rewrite ac_run_app in E.
  set (s1 := mkAcceptor false false (ac_ready s0) (ac_list s0) (ac_running s0)) in *.
  destruct (ac_run s1 mid) as [s2|] eqn:E2; [|discriminate].
  assert (C1 : closed_with (ac_ready s0) s1) by (split; cbn; auto).
  destruct (closed_run _ _ _ _ E2 C1) as [C2 _].
  cbn [ac_run] in E. destruct (ac_step s2 AStopAll) as [s3|] eqn:E3; [|discriminate].
  destruct (closed_step _ _ _ _ E3 C2) as [C3 _].
  destruct (closed_run _ _ _ _ E C3) as [_ H]. destruct (H i Hi) as [F|F]; [|exact F].
  exfalso. cbn [ac_step] in E3. injection E3 as <-. cbn [ac_running] in F.
  apply filter_In in F as [F1 F2].
  assert (I1 : incl (ac_running s2) (ac_list s2)).
  { eapply ac_incl_run; [exact E2|]. cbn. eapply ac_incl_run; [exact E0|]. intros x []. }
  apply I1 in F1. apply negb_true_iff in F2.
  assert (existsb (Nat.eqb i) (ac_list s2) = true) by (apply existsb_exists; exists i; split; [exact F1|apply Nat.eqb_refl]).
  congruence.
Qed.

Lemma stays_lemma : forall ms s s' i, ac_run s ms = Some s' -> In i (ac_running s) ->
  ~ In AStopAll ms -> ~ In (ABreak i) ms -> In i (ac_running s').
Proof.
  induction ms as [|m ms IH]; intros s s' i E H N1 N2; [injection E as <-; exact H|].
  cbn [ac_run] in E. destruct (ac_step s m) as [s1|] eqn:Em; [|discriminate].
  apply (IH s1 s' i E); [|intro F; apply N1; right; exact F|intro F; apply N2; right; exact F].
  destruct m; cbn [ac_step] in Em;
  repeat match type of Em with
  | context[match ?x with _ => _ end] => destruct x eqn:?
  end; try discriminate; injection Em as <-; cbn; auto.
  - apply in_or_app. auto.
  - exfalso. apply N1. left. reflexivity.
  - apply rem_in. split; [|exact H]. intros ->. apply N2. left. reflexivity.
Qed.

(** * Blocking calls in methods *)

Lemma pl_run_app : forall a b s, pl_run s (a ++ b) =
  match pl_run s a with Some s' => pl_run s' b | None => None end.
Proof.
  induction a as [|m a IH]; intros b s; [reflexivity|]. cbn [pl_run app].
  destruct (pl_step s m); [apply IH|reflexivity].
Qed.

Theorem starved_lemma : forall ms s s', length (pl_blocked s) = io_threads -> pl_run s ms = Some s' ->
  pl_blocked s' = pl_blocked s /\ pl_done s' = pl_done s.
Proof.
  induction ms as [|m ms IH]; intros s s' B E; [injection E as <-; auto|].
  cbn [pl_run] in E. destruct (pl_step s m) as [s1|] eqn:Em; [|discriminate].
  assert (K : pl_blocked s1 = pl_blocked s /\ pl_done s1 = pl_done s).
  { destruct m; cbn [pl_step] in Em.
    - injection Em as <-. auto.
    - destruct (existsb _ _); [|discriminate]. injection Em as <-. auto.
    - rewrite B, Nat.ltb_irrefl in Em. discriminate. }
  destruct K as [K1 K2]. rewrite <- K1, <- K2. apply (IH s1); [rewrite K1; exact B|exact E].
Qed.

Definition reqs_of (q : list handler) : list nat :=
  flat_map (fun h => match h with HRequest i => [i] | HAnswer _ => [] end) q.
Definition answers_of (q : list handler) : list nat :=
  flat_map (fun h => match h with HAnswer i => [i] | HRequest _ => [] end) q.

Record pinv (s : pool) : Prop := {
  pi_nd : NoDup (pl_blocked s ++ reqs_of (pl_queue s) ++ pl_done s);
  pi_all : forall i, In i (pl_blocked s ++ reqs_of (pl_queue s) ++ pl_done s) <-> i < pl_next s;
  pi_wait : forall i, In i (pl_blocked s) <-> In i (pl_asked s ++ answers_of (pl_queue s));
  pi_nd2 : NoDup (pl_asked s ++ answers_of (pl_queue s))
}.

Lemma in_split_rem : forall i l, NoDup l -> In i l -> exists a b, l = a ++ i :: b /\ rem i l = a ++ b.
Proof.
  intros i l N H. apply in_split in H as (a & b & ->). exists a, b. split; [reflexivity|].
  apply NoDup_remove in N as [_ N]. unfold rem. rewrite filter_app. cbn [filter].
  rewrite Nat.eqb_refl. cbn [negb].
  rewrite !filter_all; [reflexivity| |]; intros x Hx; apply negb_true_iff, Nat.eqb_neq; intros ->;
    apply N, in_or_app; auto.
Qed.

Lemma reqs_app : forall a b, reqs_of (a ++ b) = reqs_of a ++ reqs_of b.
Proof. intros. unfold reqs_of. apply flat_map_app. Qed.
Lemma answers_app : forall a b, answers_of (a ++ b) = answers_of a ++ answers_of b.
Proof. intros. unfold answers_of. apply flat_map_app. Qed.

Lemma existsb_nat : forall i l, existsb (Nat.eqb i) l = true <-> In i l.
Proof.
  intros i l. rewrite existsb_exists. split.
  - intros (x & H & E). apply Nat.eqb_eq in E. subst. exact H.
  - intro H. exists i. split; [exact H|apply Nat.eqb_refl].
Qed.

From Coq Require Import Permutation.

Lemma pinv_step : forall s m s', pinv s -> pl_step s m = Some s' -> pinv s'.
Proof.
  intros s m s' [P1 P2 P3 P4] E. destruct m as [|i|]; cbn [pl_step] in E.
  - injection E as <-.
    assert (Pe : Permutation (pl_blocked s ++ reqs_of (pl_queue s ++ [HRequest (pl_next s)]) ++ pl_done s)
                             (pl_next s :: pl_blocked s ++ reqs_of (pl_queue s) ++ pl_done s)).
    { rewrite reqs_app. cbn [reqs_of flat_map app]. rewrite <- app_assoc. cbn [app].
      rewrite app_assoc. rewrite <- Permutation_middle. rewrite <- app_assoc. reflexivity. }
    constructor; cbn [pl_queue pl_blocked pl_asked pl_done pl_next].
    + eapply Permutation_NoDup; [symmetry; exact Pe|]. constructor; [|exact P1].
      intro F. apply P2 in F. lia.
    + intro j. rewrite Pe. cbn [In]. rewrite P2. lia.
    + intro j. rewrite answers_app. cbn [answers_of flat_map app]. rewrite app_nil_r. apply P3.
    + rewrite answers_app. cbn [answers_of flat_map app]. rewrite app_nil_r. exact P4.
  - destruct (existsb (Nat.eqb i) (pl_asked s)) eqn:X; [|discriminate]. injection E as <-.
    apply existsb_nat in X.
    destruct (in_split_rem i (pl_asked s)) as (a & b & Ea & Er); [eapply nodup_app_l; exact P4|exact X|].
    assert (Pe : Permutation (rem i (pl_asked s) ++ answers_of (pl_queue s ++ [HAnswer i]))
                             (pl_asked s ++ answers_of (pl_queue s))).
    { rewrite Er, Ea, answers_app. cbn [answers_of flat_map app].
      rewrite app_assoc, <- Permutation_cons_append. rewrite <- !app_assoc. cbn [app].
      apply Permutation_middle. }
    constructor; cbn [pl_queue pl_blocked pl_asked pl_done pl_next].
    + rewrite reqs_app. cbn [reqs_of flat_map app]. rewrite app_nil_r. exact P1.
    + intro j. rewrite reqs_app. cbn [reqs_of flat_map app]. rewrite app_nil_r. apply P2.
    + intro j. rewrite Pe. apply P3.
    + eapply Permutation_NoDup; [symmetry; exact Pe|exact P4].
  - destruct (length (pl_blocked s) <? io_threads); [|discriminate].
    destruct (pl_queue s) as [|[i|i] q] eqn:Q; [discriminate| |].
    + injection E as <-. cbn [reqs_of answers_of flat_map app] in P1, P2, P3, P4.
      fold (reqs_of q) in *. fold (answers_of q) in *.
      constructor; cbn [pl_queue pl_blocked pl_asked pl_done pl_next].
      * rewrite <- app_assoc. exact P1.
      * intro j. rewrite <- app_assoc. apply P2.
      * intro j. rewrite <- app_assoc. rewrite !in_app_iff. rewrite P3, in_app_iff. tauto.
      * rewrite <- app_assoc. cbn [app]. apply (Permutation_NoDup (Permutation_middle _ _ _)).
        constructor; [|exact P4]. intro F. apply P3 in F.
        apply NoDup_remove in P1 as [_ P1]. apply P1, in_or_app. auto.
    + injection E as <-. cbn [reqs_of answers_of flat_map app] in P1, P2, P3, P4.
      fold (reqs_of q) in *. fold (answers_of q) in *.
      assert (Bi : In i (pl_blocked s)) by (apply P3, in_or_app; right; left; reflexivity).
      destruct (in_split_rem i (pl_blocked s)) as (a & b & Ea & Er); [eapply nodup_app_l; exact P1|exact Bi|].
      assert (Pe : Permutation (rem i (pl_blocked s) ++ reqs_of q ++ pl_done s ++ [i])
                               (pl_blocked s ++ reqs_of q ++ pl_done s)).
      { rewrite Er, Ea. rewrite !app_assoc, <- Permutation_cons_append. rewrite <- !app_assoc. cbn [app].
        apply Permutation_middle. }
      constructor; cbn [pl_queue pl_blocked pl_asked pl_done pl_next].
      * eapply Permutation_NoDup; [symmetry; exact Pe|exact P1].
      * intro j. rewrite Pe. apply P2.
      * intro j. rewrite rem_in, P3. rewrite !in_app_iff. cbn [In].
        assert (Ni : ~ (In i (pl_asked s) \/ In i (answers_of q))).
        { apply NoDup_remove in P4 as [_ P4]. intro F. apply P4, in_or_app. tauto. }
        split; [|intro F; split; [intros ->; tauto|tauto]].
        intros [N [F|[F|F]]]; auto. congruence.
      * eapply NoDup_remove_1; exact P4.
Qed.

Lemma pinv_run : forall ms s s', pinv s -> pl_run s ms = Some s' -> pinv s'.
Proof.
  induction ms as [|m ms IH]; intros s s' V E; [injection E as <-; exact V|].
  cbn [pl_run] in E. destruct (pl_step s m) as [s1|] eqn:Em; [|discriminate]. eapply IH; [eapply pinv_step; [exact V|exact Em]|exact E].
Qed.

Lemma pinv_init : pinv pool_init.
Proof.
  constructor; cbn; try constructor; try tauto; try lia.
Qed.

Lemma lengths : forall s, pinv s -> length (pl_blocked s) + length (reqs_of (pl_queue s)) + length (pl_done s) = pl_next s.
Proof.
  intros s [P1 P2 _ _].
  rewrite <- Nat.add_assoc, <- !app_length.
  assert (Pe : Permutation (pl_blocked s ++ reqs_of (pl_queue s) ++ pl_done s) (seq 0 (pl_next s))).
  { apply NoDup_Permutation; [exact P1|apply seq_NoDup|]. intro i. rewrite P2, in_seq. lia. }
  rewrite (Permutation_length Pe). apply seq_length.
Qed.

Lemma rem_length : forall i l, length (rem i l) <= length l.
Proof.
  intros i. unfold rem. induction l as [|j l IH]; [cbn; lia|]. cbn. destruct (negb (Nat.eqb i j)); cbn; lia.
Qed.

Definition pweight (s : pool) : nat :=
  4 * length (reqs_of (pl_queue s)) + 2 * length (pl_asked s) + length (answers_of (pl_queue s)).

Lemma all_finish : forall k s, pweight s <= k -> pinv s -> unfinished s < io_threads ->
  exists more s', pl_run s more = Some s' /\ ~ In LArrive more /\ unfinished s' = 0 /\ pl_next s' = pl_next s.
Proof.
  induction k as [|k IH]; intros s W V U.
  - assert (Z : pl_blocked s = []).
    { unfold pweight in W. destruct V as [_ _ P3 _].
      destruct (pl_blocked s) as [|j l] eqn:Bl; [reflexivity|]. exfalso.
      assert (In j (pl_asked s ++ answers_of (pl_queue s))) as F by (apply P3; left; reflexivity).
      apply in_app_or in F. destruct (pl_asked s), (answers_of (pl_queue s)); cbn in *; try lia; tauto. }
    exists [], s. split; [reflexivity|]. split; [intros []|]. split; [|reflexivity].
    pose proof (lengths s V) as L. unfold unfinished. unfold pweight in W. rewrite Z in L. cbn in L. lia.
  - pose proof (lengths s V) as L. unfold unfinished, io_threads in U.
    assert (Go : forall m s1, pl_step s m = Some s1 -> m <> LArrive -> pweight s1 <= k ->
       pl_next s1 = pl_next s ->
       exists more s', pl_run s more = Some s' /\ ~ In LArrive more /\ unfinished s' = 0 /\ pl_next s' = pl_next s).
    { intros m s1 Em Nm W1 N1. pose proof (pinv_step _ _ _ V Em) as V1.
      destruct (IH s1 W1 V1) as (more & s' & R & NA & F & N).
      - unfold unfinished, io_threads. rewrite N1.
        enough (length (pl_done s) <= length (pl_done s1)) by lia.
        destruct m; cbn [pl_step] in Em.
        + congruence.
        + destruct (existsb _ _); [|discriminate]. injection Em as <-. cbn. lia.
        + destruct (_ <? _); [|discriminate]. destruct (pl_queue s) as [|[i|i] q]; [discriminate| |];
            injection Em as <-; cbn; rewrite ?app_length; lia.
      - exists (m :: more), s'. split; [cbn [pl_run]; rewrite Em; exact R|].
        split; [intros [H|H]; auto|]. split; [exact F|congruence]. }
    destruct (pl_queue s) as [|h q] eqn:Q.
    + destruct (pl_asked s) as [|i l] eqn:As.
      * apply (IH s); [unfold pweight; rewrite Q, As; cbn; lia|exact V|unfold unfinished, io_threads; lia].
      * eapply (Go (LAnswer i)).
        -- cbn [pl_step]. rewrite As. cbn [existsb]. rewrite Nat.eqb_refl. cbn [orb]. reflexivity.
        -- discriminate.
        -- unfold pweight. cbn [pl_queue pl_asked]. rewrite Q. cbn [app reqs_of answers_of flat_map length].
           unfold pweight in W. rewrite Q, As in W. cbn in W.
           assert (length (rem i (i :: l)) <= length l).
           { unfold rem. cbn. rewrite Nat.eqb_refl. cbn. apply rem_length. }
           lia.
        -- reflexivity.
    + assert (B : length (pl_blocked s) <? io_threads = true).
      { apply Nat.ltb_lt. unfold io_threads. lia. }
      destruct h as [i|i].
      * eapply (Go LTake).
        -- cbn [pl_step]. rewrite B, Q. reflexivity.
        -- discriminate.
        -- unfold pweight in *. cbn [pl_queue pl_asked]. rewrite Q in W. cbn in W. rewrite app_length. cbn.
           fold (reqs_of q) in *. fold (answers_of q) in *. lia.
        -- reflexivity.
      * eapply (Go LTake).
        -- cbn [pl_step]. rewrite B, Q. reflexivity.
        -- discriminate.
        -- unfold pweight in *. cbn [pl_queue pl_asked]. rewrite Q in W. cbn in W.
           fold (reqs_of q) in *. fold (answers_of q) in *. lia.
        -- reflexivity.
Qed.

Theorem pool_lemma : forall ms s, pl_run pool_init ms = Some s -> unfinished s < io_threads ->
  exists more s', pl_run s more = Some s' /\ ~ In LArrive more /\ unfinished s' = 0 /\ pl_next s' = pl_next s.
Proof.
  intros ms s E U. eapply all_finish; [apply Nat.le_refl| |exact U].
  eapply pinv_run; [apply pinv_init|exact E].
Qed.
