From Coq Require Import List Bool ZArith Lia Sorted.
From Verif Require Import Base ThrModel ThrSpec.
Import ListNotations.

(** * Callback thread *)

Lemma ct_run_app : forall a b s, ct_run s (a ++ b) =
  match ct_run s a with
  | Some (Going s') => ct_run s' b
  | Some Terminated => match b with [] => Some Terminated | _ => None end
  | None => None
  end.
Proof.
  induction a as [|m a IH]; intros b s; cbn [ct_run app].
  - reflexivity.
  - destruct (ct_step s m) as [[s'|]|]; [apply IH| |reflexivity].
    destruct a; cbn [app]; [reflexivity|]. destruct b; reflexivity.
Qed.

Lemma ct_run_snoc : forall a m s s', ct_run s (a ++ [m]) = Some (Going s') ->
  exists s1, ct_run s a = Some (Going s1) /\ ct_step s1 m = Some (Going s').
Proof.
  intros a m s s' E. rewrite ct_run_app in E.
  destruct (ct_run s a) as [[s1|]|]; try discriminate. exists s1. split; [reflexivity|].
  cbn [ct_run] in E. destruct (ct_step s1 m) as [[s2|]|]; congruence.
Qed.

Ltac step_cases H :=
  repeat match type of H with
  | context[match ?x with _ => _ end] => destruct x eqn:?
  end; try discriminate.

Lemma stop_sticks : forall m s s', ct_step s m = Some (Going s') -> ct_stop s = true -> ct_stop s' = true.
Proof.
  intros m s s' E H. destruct m; cbn [ct_step] in E; step_cases E; injection E as <-; cbn; auto.
Qed.

Lemma stopped_no_begin : forall m s s', ct_step s m = Some s' -> ct_stop s = true -> ~ begins m.
Proof.
  intros m s s' E H [-> | ->]; cbn [ct_step] in E; rewrite H in E; cbn in E;
    destruct (ct_worker s); discriminate.
Qed.

Lemma stopped_run : forall ms s s', ct_run s ms = Some s' -> ct_stop s = true ->
  forall m, In m ms -> ~ begins m.
Proof.
  induction ms as [|m ms IH]; intros s s' E H x Hx; [destruct Hx|].
  cbn [ct_run] in E. destruct (ct_step s m) as [st|] eqn:Em; [|discriminate].
  destruct Hx as [<-|Hx]; [eapply stopped_no_begin; eauto|].
  destruct st as [s1|].
  - eapply IH; eauto. eapply stop_sticks; eauto.
  - destruct ms; [destruct Hx|discriminate].
Qed.

Theorem after_stop_lemma : forall a t b s', ct_run ct_init (a ++ MStop t :: b) = Some s' ->
  forall m, In m b -> ~ begins m.
Proof.
  intros a t b s' E. rewrite ct_run_app in E.
  destruct (ct_run ct_init a) as [[s|]|] eqn:Ea; try discriminate.
  cbn [ct_run] in E. destruct (ct_step s (MStop t)) as [[s1|]|] eqn:Es; try discriminate.
  - eapply stopped_run; [exact E|]. cbn [ct_step] in Es. step_cases Es; injection Es as <-; reflexivity.
  - destruct b; [intros m []|discriminate].
Qed.

(** join returns only when the callback does not run *)
Lemma joined_only_done : forall s t s', ct_step s (MJoined t) = Some s' -> ct_worker s = WDone.
Proof. intros s t s' E. cbn [ct_step] in E. destruct (ct_worker s); congruence. Qed.

Lemma worker_none_run : forall ms s s', ct_run s ms = Some (Going s') -> ct_stop s = true ->
  ct_worker s <> WCall -> ct_worker s' <> WCall.
Proof.
  induction ms as [|m ms IH]; intros s s' E H W.
  - injection E as <-. exact W.
  - cbn [ct_run] in E. destruct (ct_step s m) as [[s1|]|] eqn:Em; try discriminate.
    + eapply IH; [exact E|eapply stop_sticks; eauto|].
      pose proof (stopped_no_begin _ _ _ Em H) as NB.
      destruct m; cbn [ct_step] in Em; step_cases Em; injection Em as <-; cbn; try congruence;
        exfalso; apply NB; unfold begins; auto.
    + destruct ms; discriminate.
Qed.

Lemma joined_has_stopped : forall ms s t s1, ct_run ct_init ms = Some (Going s) ->
  ct_step s (MJoined t) = Some s1 -> ct_stop s = true.
Proof.
  assert (K : forall ms s, ct_run ct_init ms = Some (Going s) ->
              (ct_worker s = WDone -> ct_stop s = true)).
  { induction ms as [|m ms IH] using rev_ind; intros s E.
    - injection E as <-. discriminate.
    - apply ct_run_snoc in E as (s0 & E0 & Em). specialize (IH s0 E0).
      destruct m; cbn [ct_step] in Em; step_cases Em; injection Em as <-; cbn; try congruence; auto. }
  intros ms s t s1 E J. apply (K ms s E). eapply joined_only_done; eauto.
Qed.

Theorem joined_lemma : forall a t b s, ct_run ct_init (a ++ MJoined t :: b) = Some (Going s) ->
  ct_worker s <> WCall /\ forall m, In m b -> ~ begins m.
Proof.
  intros a t b s E. rewrite ct_run_app in E.
  destruct (ct_run ct_init a) as [[s0|]|] eqn:Ea; try discriminate.
  cbn [ct_run] in E. destruct (ct_step s0 (MJoined t)) as [[s1|]|] eqn:Es; try discriminate.
  2:{ destruct b; discriminate. }
  pose proof (joined_has_stopped _ _ _ _ Ea Es) as St.
  assert (St1 : ct_stop s1 = true) by (eapply stop_sticks; eauto).
  split; [|eapply stopped_run; eauto].
  eapply worker_none_run; [exact E|exact St1|].
  cbn [ct_step] in Es. step_cases Es; injection Es as <-; discriminate.
Qed.

(** no trigger is lost *)
Lemma trig_kept : forall m s s', ct_step s m = Some (Going s') -> ct_trig s = true -> m <> MWake ->
  ct_trig s' = true.
Proof.
  intros m s s' E H N. destruct m; try congruence; cbn [ct_step] in E; step_cases E; injection E as <-;
    cbn; auto.
Qed.

Lemma trig_run : forall b s s', ct_run s b = Some (Going s') -> ct_trig s = true -> ~ In MWake b ->
  ct_trig s' = true.
Proof.
  induction b as [|m b IH]; intros s s' E H N.
  - injection E as <-. exact H.
  - cbn [ct_run] in E. destruct (ct_step s m) as [[s1|]|] eqn:Em; try discriminate.
    + eapply IH; [exact E| |intro F; apply N; right; exact F].
      eapply trig_kept; eauto. intros ->. apply N. left. reflexivity.
    + destruct b; discriminate.
Qed.

Lemma never_stopped : forall ms s, ct_run ct_init ms = Some (Going s) ->
  (forall m, In m ms -> ~ is_stop m) -> ct_stop s = false.
Proof.
  induction ms as [|m ms IH] using rev_ind; intros s E N.
  - injection E as <-. reflexivity.
  - apply ct_run_snoc in E as (s0 & E0 & Em).
    assert (Hs : ct_stop s0 = false).
    { apply IH; [exact E0|]. intros x Hx. apply N, in_or_app. auto. }
    assert (Nm : ~ is_stop m) by (apply N, in_or_app; right; left; reflexivity).
    destruct m; cbn [ct_step] in Em; step_cases Em; injection Em as <-; cbn; auto;
      exfalso; apply Nm; left; eauto.
Qed.

Theorem trigger_lemma : forall a b s, ct_run ct_init (a ++ MTrigger :: b) = Some (Going s) ->
  (forall m, In m (a ++ MTrigger :: b) -> ~ is_stop m) ->
  ct_worker s = WWait -> ct_step s MWake = None -> In MWake b.
Proof.
  intros a b s E N W Q.
  destruct (in_dec (fun x y : ct_move => ltac:(decide equality; apply Nat.eq_dec) : {x = y} + {x <> y}) MWake b)
    as [H|H]; [exact H|]. exfalso.
  pose proof (never_stopped _ _ E N) as St.
  rewrite ct_run_app in E. destruct (ct_run ct_init a) as [[s0|]|]; try discriminate.
  cbn [ct_run ct_step] in E.
  pose proof (trig_run _ _ _ E eq_refl H) as T.
  cbn [ct_step] in Q. rewrite W, St, T in Q. discriminate.
Qed.

Lemma count_triggers_app : forall a b, count_triggers (a ++ b) = count_triggers a + count_triggers b.
Proof. induction a as [|m a IH]; intro b; [reflexivity|]. destruct m; cbn; rewrite IH; lia. Qed.
Lemma count_wakes_app : forall a b, count_wakes (a ++ b) = count_wakes a + count_wakes b.
Proof. induction a as [|m a IH]; intro b; [reflexivity|]. destruct m; cbn; rewrite IH; lia. Qed.

Lemma wakes_inv : forall ms s, ct_run ct_init ms = Some (Going s) ->
  count_wakes ms + (if ct_trig s then 1 else 0) <= count_triggers ms.
Proof.
  induction ms as [|m ms IH] using rev_ind; intros s E.
  - injection E as <-. cbn. lia.
  - apply ct_run_snoc in E as (s0 & E0 & Em). specialize (IH s0 E0).
    rewrite count_wakes_app, count_triggers_app.
    destruct m; cbn [ct_step] in Em; step_cases Em; injection Em as <-; cbn [ct_trig count_wakes count_triggers];
      repeat match goal with H : _ && _ = true |- _ => apply andb_prop in H as [? ?] end;
      repeat match goal with H : ct_trig s0 = _ |- _ => rewrite H in * end;
      try destruct (ct_trig s0); try lia.
Qed.

Theorem wakes_lemma : forall ms s, ct_run ct_init ms = Some (Going s) ->
  count_wakes ms <= count_triggers ms.
Proof. intros ms s E. pose proof (wakes_inv ms s E). lia. Qed.

(** stop can always finish *)
Lemma stopper_inv : forall ms s, ct_run ct_init ms = Some (Going s) ->
  forall t, ct_stopper s = Some t -> ct_stop s = true /\ ct_join s = true /\ ct_worker s <> WNone.
Proof.
  assert (K : forall ms s, ct_run ct_init ms = Some (Going s) ->
    (ct_join s = true <-> ct_worker s <> WNone)
    /\ forall t, ct_stopper s = Some t -> ct_stop s = true /\ ct_join s = true).
  { induction ms as [|m ms IH] using rev_ind; intros s E.
    - injection E as <-. cbn. split; [split; congruence|discriminate].
    - apply ct_run_snoc in E as (s0 & E0 & Em). destruct (IH s0 E0) as [I1 I2].
      destruct m; cbn [ct_step] in Em; step_cases Em; injection Em as <-; cbn;
        (split; [try (split; congruence); try exact I1; try (rewrite <- I1; split; congruence)|]);
        try (intros t0 F; try discriminate; try (injection F as <-); split; auto; apply (I2 _ F));
        try (intros t0 F; apply I2 in F; tauto); try (intros; discriminate).
      all: try (split; intros; [discriminate|apply I1; congruence]).
      all: try (split; intros; try discriminate; try congruence; apply I1; congruence). }
  intros ms s E t F. destruct (K ms s E) as [K1 K2]. destruct (K2 t F) as [A B].
  split; [exact A|]. split; [exact B|]. apply K1, B.
Qed.

Theorem stop_finishes_lemma : forall ms s t, ct_run ct_init ms = Some (Going s) ->
  ct_stopper s = Some t ->
  exists more s', ct_run s more = Some (Going s') /\ (forall m, In m more -> m = MEnd \/ m = MQuit \/ m = MJoined t)
                  /\ ct_join s' = false /\ length more <= 3.
Proof.
  intros ms s t E F. destruct (stopper_inv ms s E t F) as (A & B & C).
  destruct s as [st tr jo wo sp]. cbn in A, B, C, F. subst.
  destruct wo; [congruence| | |].
  - exists [MQuit; MJoined t]. eexists. split; [cbn; rewrite Nat.eqb_refl; reflexivity|].
    split; [intros m [<-|[<-|[]]]; auto|]. cbn. auto.
  - exists [MEnd; MQuit; MJoined t]. eexists. split; [cbn; rewrite Nat.eqb_refl; reflexivity|].
    split; [intros m [<-|[<-|[<-|[]]]]; auto|]. cbn. auto.
  - exists [MJoined t]. eexists. split; [cbn; rewrite Nat.eqb_refl; reflexivity|].
    split; [intros m [<-|[]]; auto|]. cbn. auto.
Qed.

(** one start, one stopping thread, no stop inside the callback: nothing goes wrong *)
Lemma one_start_inv : forall t ms s, ct_run ct_init (MStart :: ms) = Some s -> ~ In MStart ms ->
  (forall u, In (MStop u) ms -> u = t) -> ~ In MSelfStop ms ->
  exists s', s = Going s' /\ (ct_stopper s' = None \/ ct_stopper s' = Some t).
Proof.
  intros t ms. induction ms as [|m ms IH] using rev_ind; intros s E N1 N2 N3.
  - injection E as <-. eexists. split; [reflexivity|]. left. reflexivity.
  - change (MStart :: ms ++ [m]) with ((MStart :: ms) ++ [m]) in E. rewrite ct_run_app in E.
    destruct (ct_run ct_init (MStart :: ms)) as [s0|] eqn:E0; [|discriminate].
    destruct (IH s0 eq_refl) as (s1 & -> & H).
    { intro F. apply N1, in_or_app. auto. }
    { intros u F. apply N2, in_or_app. auto. }
    { intro F. apply N3, in_or_app. auto. }
    cbn [ct_run] in E.
    destruct (ct_step s1 m) as [s2|] eqn:Em; [|discriminate].
    assert (s2 = s) by (destruct s2; congruence). subst s2. clear E.
    destruct m; cbn [ct_step] in Em; step_cases Em;
      try (injection Em as <-; eexists; split; [reflexivity|]; cbn; auto; fail).
    all: try (exfalso; apply N1, in_or_app; right; left; reflexivity).
    all: try (exfalso; apply N3, in_or_app; right; left; reflexivity).
    all: match type of N2 with context[MStop ?u] =>
           assert (u = t) by (apply N2, in_or_app; right; left; reflexivity); subst u end.
    + destruct H as [H|H]; [congruence|].
      match goal with R : Nat.eqb ?u t = false |- _ =>
        assert (u = t) by congruence; subst u; rewrite Nat.eqb_refl in R; discriminate end.
    + injection Em as <-. eexists. split; [reflexivity|]. cbn. auto.
Qed.

Theorem orderly_lemma : forall t ms s, ct_run ct_init (MStart :: ms) = Some s -> ~ In MStart ms ->
  (forall u, In (MStop u) ms -> u = t) -> ~ In MSelfStop ms -> s <> Terminated.
Proof.
  intros t ms s E N1 N2 N3. destruct (one_start_inv t ms s E N1 N2 N3) as (s' & -> & _). discriminate.
Qed.

(** * Timer *)

Theorem drift_lemma : forall period rs err, Forall steady rs ->
  elapsed rs = (Z.of_nat (length rs) * period + (snd (rounds period err rs) - err))%Z.
Proof.
  intros period; induction rs as [|r rs IH]; intros err H; [cbn; lia|].
  inversion H as [|? ? H1 H2]; subst.
  cbn [rounds elapsed fold_right length]. unfold round.
  destruct (Z.ltb_spec (rd_end r) (rd_start r)) as [L|L]; [unfold steady in H1; lia|].
  set (e1 := (rd_now r - rd_start r - (period - err))%Z).
  specialize (IH e1 H2). destruct (rounds period e1 rs) as [reqs e2]. cbn [snd] in *.
  fold (elapsed rs). rewrite IH. subst e1. lia.
Qed.

Theorem in_time_lemma : forall period delta rs err, (0 <= err <= delta)%Z ->
  in_time period err delta rs -> (0 <= snd (rounds period err rs) <= delta)%Z
  /\ Forall (fun q => (0 <= q)%Z) (fst (rounds period err rs)) /\ Forall steady rs.
Proof.
  intros period delta; induction rs as [|r rs IH]; intros err He H; [cbn; auto|].
  cbn [in_time] in H. destruct H as (H1 & H2 & H3 & H4).
  cbn [rounds]. unfold round.
  destruct (Z.ltb_spec (rd_end r) (rd_start r)) as [L|L]; [unfold steady in H1; lia|].
  set (e1 := (rd_now r - rd_start r - (period - err))%Z) in *.
  assert (He1 : (0 <= e1 <= delta)%Z) by (subst e1; lia).
  specialize (IH e1 He1 H4). destruct (rounds period e1 rs) as [reqs e2]. cbn [fst snd] in *.
  destruct IH as (A & B & C). split; [exact A|]. split; constructor; auto.
Qed.

Theorem burst_lemma : forall period rs k, (0 < period)%Z ->
  Forall instant rs -> length rs <= k ->
  Forall (fun q => (q <= 0)%Z) (fst (rounds period (Z.of_nat k * period) rs)).
Proof.
  intros period; induction rs as [|r rs IH]; intros k P H L; [constructor|].
  inversion H as [|? ? [H1 H1'] H2]; subst. cbn [length] in L. destruct k as [|k]; [lia|].
  cbn [rounds]. unfold round. rewrite H1, H1', Z.ltb_irrefl.
  replace (rd_start r - rd_start r - (period - Z.of_nat (S k) * period))%Z
    with (Z.of_nat k * period)%Z by lia.
  specialize (IH k P H2 ltac:(lia)).
  destruct (rounds period (Z.of_nat k * period) rs) as [reqs e2]. cbn [fst] in *.
  constructor; [|exact IH]. nia.
Qed.

(** * Frequency *)

Lemma meter_run_snoc : forall os o m,
  meter_run m (os ++ [o]) =
  let '(fs, m1) := meter_run m os in
  let '(f, m2) := meter_step m1 o in
  (fs ++ match f with Some x => [x] | None => [] end, m2).
Proof.
  induction os as [|a os IH]; intros o m; cbn [meter_run app].
  - destruct (meter_step m o) as [f m2]. destruct f; reflexivity.
  - destruct (meter_step m a) as [f m1]. rewrite IH.
    destruct (meter_run m1 os) as [fs m2]. destruct (meter_step m2 o) as [f3 m3].
    destruct f; reflexivity.
Qed.

Lemma tick_times_app : forall a b, tick_times (a ++ b) = tick_times a ++ tick_times b.
Proof. induction a as [|o a IH]; intro b; [reflexivity|]. destruct o; cbn; rewrite IH; reflexivity. Qed.

Lemma measured_snoc : forall ts t f, measured ts f -> measured (ts ++ [t]) f.
Proof.
  intros ts t f (b & x & mid & y & a & -> & ->). exists b, x, mid, y, (a ++ [t]).
  split; [|reflexivity]. rewrite <- app_assoc. cbn. rewrite <- app_assoc. reflexivity.
Qed.

(** The calculator counts the ticks after its first one. *)
Definition tracks_calc (ts : list Z) (c : calc) : Prop :=
  (exists b mid, ts = b ++ k_first c :: mid
     /\ k_count c = Z.of_nat (length mid) /\ k_last c = last (k_first c :: mid) 0%Z)
  /\ (k_prev c = FZero \/ measured ts (k_prev c)).

Definition tracks_meter (ts : list Z) (m : meter) : Prop :=
  match me_calc m with None => True | Some c => tracks_calc ts c /\ me_last m = k_last c end.

Lemma last_last : forall (l : list Z) x d, last (l ++ [x]) d = x.
Proof.
  induction l as [|a l IH]; intros x d; [reflexivity|]. cbn [app last].
  destruct (l ++ [x]) eqn:E; [destruct l; discriminate|]. rewrite <- E. apply IH.
Qed.

Lemma tracks_tick : forall ts m t, tracks_meter ts m -> tracks_meter (ts ++ [t]) (meter_tick m t).
Proof.
  intros ts m t H. unfold tracks_meter, meter_tick in *. cbn [me_calc me_last].
  destruct (me_calc m) as [c|].
  - destruct H as [[(b & mid & E & N & L) P] _]. split; [|reflexivity]. split.
    + exists b, (mid ++ [t]). cbn [calc_tick k_first k_count k_last]. split; [|split].
      * rewrite E, <- app_assoc. reflexivity.
      * rewrite app_length, N. cbn. lia.
      * rewrite app_comm_cons, last_last. reflexivity.
    + cbn [calc_tick k_prev]. destruct P as [P|P]; [left; exact P|right; apply measured_snoc, P].
  - split; [|reflexivity]. split; [|left; reflexivity]. exists ts, []. repeat split; reflexivity.
Qed.

Lemma last_app_cons : forall (b : list Z) x mid d, last (b ++ x :: mid) d = last (x :: mid) d.
Proof.
  induction b as [|a b IH]; intros x mid d; [reflexivity|]. cbn [app].
  rewrite <- (IH x mid d). cbn [last]. destruct (b ++ x :: mid) eqn:E; [destruct b; discriminate|reflexivity].
Qed.

Lemma sorted_app_r : forall (a b : list Z), StronglySorted Z.lt (a ++ b) -> StronglySorted Z.lt b.
Proof. induction a as [|x a IH]; intros b H; [exact H|]. inversion H; subst. apply IH. assumption. Qed.

Lemma calc_get_tracks : forall ts c f c', StronglySorted Z.lt ts -> tracks_calc ts c ->
  calc_get c = (f, c') -> (f = FZero \/ measured ts f) /\ tracks_calc ts c' /\ k_last c' = k_last c.
Proof.
  intros ts c f c' S [(b & mid & E & N & L) P] G. unfold calc_get in G.
  destruct (Z.eqb_spec (k_count c) 0) as [Z0|Z0].
  - injection G as <- <-. split; [exact P|]. split; [|reflexivity]. split; [exists b, mid; auto|exact P].
  - unfold calculate in G.
    destruct mid as [|y0 mid0 _] using rev_ind; [cbn in N; lia|].
    rewrite app_comm_cons, last_last in L. rewrite app_length in N. cbn in N.
    assert (Lt : (k_first c < k_last c)%Z).
    { rewrite E in S. apply sorted_app_r, StronglySorted_inv in S as [_ F].
      rewrite L. rewrite Forall_forall in F. apply F, in_or_app. right. left. reflexivity. }
    destruct (Z.eqb_spec (k_last c - k_first c) 0) as [D|D]; [lia|].
    injection G as <- <-.
    assert (M : measured ts (FRatio (k_count c) (k_last c - k_first c))).
    { exists b, (k_first c), mid0, y0, []. split; [exact E|]. f_equal; [lia|]. rewrite L. reflexivity. }
    split; [right; exact M|]. split; [|reflexivity]. split; [|right; exact M].
    exists (b ++ k_first c :: mid0), []. cbn [k_first k_count k_last]. split; [|split; reflexivity].
    rewrite E, L, <- app_assoc. reflexivity.
Qed.

Lemma meter_get_tracks : forall ts m t f m', StronglySorted Z.lt ts -> tracks_meter ts m ->
  meter_get m t = (f, m') -> (f = FZero \/ measured ts f) /\ tracks_meter ts m'.
Proof.
  intros ts m t f m' S H G. unfold meter_get in G. unfold tracks_meter in *.
  destruct (me_calc m) as [c|] eqn:Ec.
  - destruct H as [H HL]. destruct (calc_get c) as [g c'] eqn:Eg.
    destruct (calc_get_tracks _ _ _ _ S H Eg) as (A & B & C).
    destruct g as [| |n d].
    + injection G as <- <-. cbn. split; [left; reflexivity|]. split; [exact B|congruence].
    + destruct A as [A|(b & x & mid & y & a & _ & A)]; discriminate.
    + destruct (me_flag m).
      * injection G as <- <-. cbn. split; [exact A|]. split; [exact B|congruence].
      * destruct (_ >? _)%Z.
        -- injection G as <- <-. cbn. auto.
        -- injection G as <- <-. cbn. split; [exact A|]. split; [exact B|congruence].
  - injection G as <- <-. rewrite Ec. auto.
Qed.

Lemma sorted_prefix : forall (a b : list Z), StronglySorted Z.lt (a ++ b) -> StronglySorted Z.lt a.
Proof.
  induction a as [|x a IH]; intros b H; [constructor|]. inversion H as [|? ? H1 H2]; subst.
  constructor; [eapply IH; exact H1|]. rewrite Forall_forall in *. intros y Hy. apply H2, in_or_app. auto.
Qed.

Theorem meter_inv : forall os fs m, StronglySorted Z.lt (tick_times os) ->
  meter_run meter_init os = (fs, m) ->
  tracks_meter (tick_times os) m /\ forall f, In f fs -> f = FZero \/ measured (tick_times os) f.
Proof.
  induction os as [|o os IH] using rev_ind; intros fs m S E.
  - injection E as <- <-. split; [exact Logic.I|intros f []].
  - rewrite meter_run_snoc in E. rewrite tick_times_app in *.
    destruct (meter_run meter_init os) as [fs1 m1] eqn:E1.
    destruct (IH fs1 m1 (sorted_prefix _ _ S) eq_refl) as [A B].
    destruct o; cbn [meter_step tick_times] in *.
    + injection E as <- <-. rewrite app_nil_r. split; [apply tracks_tick, A|].
      intros f F. destruct (B f F) as [Q|Q]; [left; exact Q|right; apply measured_snoc, Q].
    + rewrite app_nil_r in *. destruct (meter_get m1 t) as [g m2] eqn:G. injection E as <- <-.
      destruct (meter_get_tracks _ _ _ _ _ S A G) as [C D]. split; [exact D|].
      intros f F. apply in_app_or in F as [F|[<-|[]]]; auto.
Qed.

Theorem measured_lemma : forall os f, StronglySorted Z.lt (tick_times os) ->
  In f (fst (meter_run meter_init os)) -> f = FZero \/ measured (tick_times os) f.
Proof.
  intros os f S F. destruct (meter_run meter_init os) as [fs m] eqn:E.
  exact (proj2 (meter_inv os fs m S E) f F).
Qed.

(** constant rate *)
Theorem constant_lemma : forall os f p, (0 < p)%Z ->
  (forall i x y, nth_error (tick_times os) i = Some x -> nth_error (tick_times os) (S i) = Some y -> (y = x + p)%Z) ->
  In f (fst (meter_run meter_init os)) ->
  f = FZero \/ exists n, (0 < n)%Z /\ f = FRatio n (n * p).
Proof.
  intros os f p P C F.
  assert (Step : forall l x mid y a, l = x :: mid ++ y :: a ->
    (forall i u v, nth_error l i = Some u -> nth_error l (S i) = Some v -> (v = u + p)%Z) ->
    (y = x + (Z.of_nat (length mid) + 1) * p)%Z).
  { intros l x mid. revert l x. induction mid as [|z mid IH]; intros l x y a -> H.
    - cbn. specialize (H 0 x y eq_refl eq_refl). lia.
    - pose proof (H 0 x z eq_refl eq_refl) as Hz.
      assert (Q : (y = z + (Z.of_nat (length mid) + 1) * p)%Z).
      { apply (IH (z :: mid ++ y :: a) z y a eq_refl). intros i u v E1 E2.
        apply (H (S i) u v); assumption. }
      cbn [length]. lia. }
  assert (Srt : StronglySorted Z.lt (tick_times os)).
  { clear F f. revert C. generalize (tick_times os) as l. induction l as [|x l IH]; intro C; [constructor|].
    assert (C' : forall i u v, nth_error l i = Some u -> nth_error l (S i) = Some v -> (v = u + p)%Z).
    { intros i u v E1 E2. apply (C (S i) u v); assumption. }
    constructor; [apply IH, C'|]. apply Forall_forall. intros y Hy.
    apply in_split in Hy as (l1 & l2 & ->).
    pose proof (Step (x :: l1 ++ y :: l2) x l1 y l2 eq_refl C) as Q. nia. }
  destruct (measured_lemma os f Srt F) as [Q|(b & x & mid & y & a & E & ->)]; [left; exact Q|right].
  assert (Q : (y = x + (Z.of_nat (length mid) + 1) * p)%Z).
  { apply (Step (x :: mid ++ y :: a) x mid y a eq_refl). intros i u v E1 E2.
    apply (C (length b + i) u v); rewrite E.
    - rewrite nth_error_app2 by lia. replace (length b + i - length b) with i by lia. exact E1.
    - rewrite nth_error_app2 by lia. replace (S (length b + i) - length b) with (S i) by lia. exact E2. }
  exists (Z.of_nat (length mid) + 1)%Z. split; [lia|]. f_equal. lia.
Qed.

(** what the last polls return *)
Definition last_get (m : meter) (t : Z) : freq := fst (meter_get m t).

Theorem silence_lemma : forall os t g1 g2 n d,
  fst (meter_get (snd (meter_run meter_init (os ++ [OTick t]))) g1) = FRatio n d ->
  fst (meter_get (snd (meter_run meter_init (os ++ [OTick t; OGet g1]))) g2)
  = if (g2 >? t + Z.quot (3 * d) n)%Z then FZero else FRatio n d.
Proof.
  intros os t g1 g2 n d H.
  change (os ++ [OTick t; OGet g1]) with (os ++ [OTick t] ++ [OGet g1]).
  rewrite app_assoc, (meter_run_snoc (os ++ [OTick t])).
  rewrite meter_run_snoc in H |- *.
  destruct (meter_run meter_init os) as [fs m]. cbn [meter_step snd fst] in *.
  unfold meter_get at 1 in H. cbn [meter_tick me_calc me_flag me_last] in H.
  set (c := match me_calc m with Some c => calc_tick c t | None => mkCalc 0 t t FZero end) in *.
  destruct (calc_get c) as [f c1] eqn:G.
  assert (f = FRatio n d) by (destruct f; cbn in H; congruence). subst f.
  assert (R : meter_get (meter_tick m t) g1 = (FRatio n d, mkMeter (Some c1) t false)).
  { unfold meter_get. cbn [meter_tick me_calc me_flag me_last]. fold c. rewrite G. reflexivity. }
  rewrite R. cbn [snd].
  assert (G2 : calc_get c1 = (FRatio n d, c1)).
  { unfold calc_get in G |- *. destruct (Z.eqb_spec (k_count c) 0) as [Z0|Z0].
    - injection G as G1 G2. rewrite <- G2. destruct (Z.eqb_spec (k_count c) 0); [|congruence].
      rewrite G1. reflexivity.
    - injection G as G1 <-. cbn. rewrite G1. reflexivity. }
  unfold meter_get. cbn [me_calc me_flag me_last]. rewrite G2. cbn [timeout_of].
  destruct (_ >? _)%Z; reflexivity.
Qed.

Theorem alive_lemma : forall os t1 gs t2 g, gs = [] \/ (exists g0, gs = [OGet g0]) ->
  fst (meter_get (snd (meter_run meter_init (os ++ OTick t1 :: gs ++ [OTick t2]))) g) <> FZero.
Proof.
  intros os t1 gs t2 g Hg.
  assert (K : forall m, (exists c, me_calc m = Some c /\ (0 <= k_count c)%Z) ->
              fst (meter_get (meter_tick m t2) g) <> FZero).
  { intros m (c & E & N). unfold meter_get, meter_tick. rewrite E. cbn [me_calc me_flag me_last].
    unfold calc_get. cbn [calc_tick k_count].
    destruct (Z.eqb_spec (k_count c + 1) 0); [lia|]. unfold calculate.
    destruct (_ =? 0)%Z; cbn; discriminate. }
  assert (Pos : forall os1 fs m, meter_run meter_init os1 = (fs, m) ->
            forall c, me_calc m = Some c -> (0 <= k_count c)%Z).
  { induction os1 as [|o os1 IH] using rev_ind; intros fs m E c Ec.
    - injection E as <- <-. discriminate.
    - rewrite meter_run_snoc in E. destruct (meter_run meter_init os1) as [fs1 m1] eqn:E1.
      specialize (IH fs1 m1 eq_refl). destruct o; cbn [meter_step] in E.
      + injection E as <- <-. cbn in Ec. destruct (me_calc m1) as [c1|] eqn:Q; injection Ec as <-; cbn.
        * specialize (IH c1 eq_refl). lia.
        * lia.
      + unfold meter_get in E. destruct (me_calc m1) as [c1|] eqn:Q.
        * specialize (IH c1 eq_refl). destruct (calc_get c1) as [f c2] eqn:Gc.
          assert (N2 : (0 <= k_count c2)%Z).
          { unfold calc_get in Gc. destruct (k_count c1 =? 0)%Z; injection Gc as _ <-; cbn; lia. }
          destruct f; [injection E as <- <-; injection Ec as <-; exact N2| |];
          (destruct (me_flag m1); [injection E as <- <-; injection Ec as <-; exact N2|];
           destruct (_ >? _)%Z; injection E as <- <-; [discriminate|injection Ec as <-; exact N2]).
        * injection E as <- <-. congruence. }
  destruct Hg as [-> | (g0 & ->)].
  - change (os ++ OTick t1 :: [] ++ [OTick t2]) with (os ++ [OTick t1] ++ [OTick t2]).
    rewrite app_assoc, meter_run_snoc.
    destruct (meter_run meter_init (os ++ [OTick t1])) as [fs m] eqn:E. cbn [meter_step snd].
    apply K. pose proof (Pos _ _ _ E) as N. rewrite meter_run_snoc in E.
    destruct (meter_run meter_init os) as [fs0 m0]. cbn [meter_step] in E. injection E as _ <-.
    eexists. split; [reflexivity|]. apply N. reflexivity.
  - change (os ++ OTick t1 :: [OGet g0] ++ [OTick t2]) with (os ++ [OTick t1] ++ [OGet g0] ++ [OTick t2]).
    rewrite !app_assoc, meter_run_snoc.
    destruct (meter_run meter_init ((os ++ [OTick t1]) ++ [OGet g0])) as [fs m] eqn:E. cbn [meter_step snd].
    apply K. pose proof (Pos _ _ _ E) as N. rewrite meter_run_snoc in E.
    rewrite (meter_run_snoc os) in E. destruct (meter_run meter_init os) as [fs0 m0].
    cbn [meter_step] in E. unfold meter_get in E. cbn [meter_tick me_calc me_flag me_last] in E.
    destruct (calc_get _) as [f c2] in E.
    assert (M : exists c, me_calc m = Some c).
    { destruct f; injection E as _ <-; eexists; reflexivity. }
    destruct M as (c & Ec). exists c. split; [exact Ec|]. apply N, Ec.
Qed.

Theorem milli_lemma : forall n d, (0 < n)%Z -> (0 < d)%Z ->
  (milli (FRatio n d) <> None <-> (n * 1000000000000 < 2147483648 * d)%Z).
Proof.
  intros n d N D. unfold milli.
  assert (Q0 : (0 <= Z.quot (n * 1000000000000) d)%Z) by (apply Z.quot_pos; lia).
  rewrite (Z.quot_div_nonneg (n * 1000000000000) d) in * by lia.
  destruct (Z.ltb_spec (n * 1000000000000 / d) 2147483648) as [L|L];
    destruct (Z.ltb_spec (-2147483649) (n * 1000000000000 / d)) as [L2|L2]; try lia; cbn [andb].
  - split; [|discriminate]. intros _. apply Z.nle_gt. intro F.
    assert ((2147483648 <= n * 1000000000000 / d)%Z) by (apply Z.div_le_lower_bound; lia). lia.
  - split; [congruence|]. intro F. exfalso.
    assert ((n * 1000000000000 / d < 2147483648)%Z) by (apply Z.div_lt_upper_bound; lia). lia.
Qed.

Theorem set_back_lemma : forall period err r rs, (rd_end r < rd_start r)%Z ->
  rounds period err (r :: rs) = (period :: fst (rounds period err rs), snd (rounds period err rs)).
Proof.
  intros period err r rs H. cbn [rounds]. unfold round. apply Z.ltb_lt in H. rewrite H.
  destruct (rounds period err rs) as [a b]. reflexivity.
Qed.
