From Verif Require Import Base TmrModel TmrSpec.
From Coq Require Import Lia.
#[local] Instance wpc_eq : EqDec wpc. Proof. intros x y. decide equality. Defined.

Lemma tm_get_set : forall k' k t s, tm_get k' (tm_set k t s) = if eqb k' k then t else tm_get k' s.
Proof. intros. unfold tm_get, tm_set. cbn. rewrite aget_aset. now destruct (eqb k' k). Qed.
Lemma aset_len : forall {V} k (v : V) (m : list (nat * V)), length (aset k v m) = if amem k m then length m else S (length m).
Proof.
  intros V k v m. unfold amem. induction m as [|[k0 v0] m IH]; [reflexivity|]. cbn [aset aget]. destruct (eqb k k0) eqn:E; cbn; rewrite ?E; [reflexivity|].
  rewrite IH. destruct (aget k m); reflexivity.
Qed.

Definition callk (c : tcall) : nat :=
  match c with KStart0 k _ _ | KStart1 k _ _ | KStart2 k _ _ | KStart3 k _ | KStop0 k | KStop1 k | KStop2 k | KStop3 k => k end.
Definition nullc (c : tcall) : bool := match c with KStart0 _ _ n | KStart1 _ _ n | KStart2 _ _ n => n | _ => false end.

Section Calm.
  Variable c_api : bool.
  Variable own : nat -> nat.
  Definition call_of (k : nat) (s : tstate) : option tcall :=
    match aget (User (own k)) (ts_calls s) with Some c => if Nat.eqb (callk c) k then Some c else None | None => None end.
  Definition is_some {A} (o : option A) : bool := match o with Some _ => true | None => false end.
  Definition phase (t : tmr) (c : option tcall) : Prop :=
    match c with
    | None | Some (KStart0 _ _ _) | Some (KStop0 _) => tm_running t = is_some (tm_thread t)
    | Some (KStart1 _ _ _) => tm_running t = false /\ tm_thread t = None
    | Some (KStart2 _ _ _) => tm_running t = false /\ tm_thread t = None /\ tm_stop t = false
    | Some (KStart3 _ to) => tm_running t = false /\ is_some (tm_thread t) = true /\ (0 <= to)%Z
    | Some (KStop1 _) | Some (KStop2 _) => tm_running t = true /\ is_some (tm_thread t) = true
    | Some (KStop3 _) => tm_running t = true /\ tm_thread t = None
    end /\ match c with Some (KStart1 _ to _) | Some (KStart2 _ to _) => (0 <= to)%Z | _ => True end.
  Definition starting (c : option tcall) : bool := match c with Some (KStart0 _ _ _) | Some (KStart1 _ _ _) | Some (KStart2 _ _ _) => true | _ => false end.
  Definition tprop (k : nat) (t : tmr) (c : option tcall) (wks : list (nat * worker)) (on wa : bool) : Prop :=
    phase t c /\
    (forall w, tm_thread t = Some w -> exists x, aget w wks = Some x /\ wk_timer x = k /\ (c_api = true -> wk_null x = false) /\
       (tm_stop t = true -> c = Some (KStop2 k)) /\
       (wk_pc x = LEnd -> c = Some (KStop2 k) /\ tm_stop t = true) /\
       (wk_pc x = LGone -> wk_null x = true \/ c = Some (KStop2 k)) /\
       (c = Some (KStop2 k) -> tm_stop t = true \/ wk_pc x = LGone)) /\
    (forall w x, aget w wks = Some x -> wk_timer x = k -> wk_pc x <> LGone -> tm_thread t = Some w) /\
    on = tm_running t /\
    (is_some (tm_thread t) || starting c = true -> wa = true).
  Definition tinv (k : nat) (s : tstate) (os : list tsaid) : Prop :=
    tprop k (tm_get k s) (call_of k s) (ts_workers s) (is_on k os) (wanted k os).
  Record inv (s : tstate) (os : list tsaid) : Prop := {
    v_dead : ts_dead s = false;
    v_calls : forall a c, aget a (ts_calls s) = Some c -> a = User (own (callk c)) /\ (c_api = true -> nullc c = false);
    v_fresh : forall w x, aget w (ts_workers s) = Some x -> w < length (ts_workers s);
    v_guard : c_api = true -> forall w, ts_guard s = Some w <-> exists x, aget w (ts_workers s) = Some x /\ wk_pc x = LIn;
    v_in : forall w, running_in w os = true <-> exists x, aget w (ts_workers s) = Some x /\ wk_pc x = LIn;
    v_timers : forall k, tinv k s os }.

  Lemma inv_init : inv ts_init [].
  Proof.
    constructor; cbn; try discriminate; try reflexivity.
    - intros _ w. split; [discriminate|]. intros [x [E _]]. discriminate.
    - intro w. split; [discriminate|]. intros [x [E _]]. discriminate.
    - intro k. unfold tinv, tprop, phase. cbn. repeat split; try discriminate.
  Qed.
  Lemma tinv_frame : forall k s s' os os', tinv k s os -> tm_get k s' = tm_get k s -> call_of k s' = call_of k s ->
    (forall w x, wk_timer x = k -> aget w (ts_workers s') = Some x <-> aget w (ts_workers s) = Some x) ->
    is_on k os' = is_on k os -> wanted k os' = wanted k os -> tinv k s' os'.
  Proof.
    intros k s s' os os' [T1 [T2 [T3 [T4 T5]]]] E1 E2 E3 E4 E5. unfold tinv, tprop. rewrite E1, E2, E4, E5. split; [exact T1|]. split; [|split; [|split; [exact T4|exact T5]]].
    - intros w H. destruct (T2 w H) as [x [X1 [X2 X3]]]. exists x. split; [now apply E3|]. split; [exact X2|exact X3].
    - intros w x H1 H2. apply T3 with (x := x); [now apply E3|exact H2].
  Qed.
  Lemma is_on_snoc : forall k os o, is_on k (os ++ [o]) = turn k (is_on k os) o.
  Proof. intros. unfold is_on. now rewrite fold_left_app. Qed.
  Lemma wanted_snoc : forall k os o, wanted k (os ++ [o]) = want k (wanted k os) o.
  Proof. intros. unfold wanted. now rewrite fold_left_app. Qed.
  Lemma running_snoc : forall k os o, running_in k (os ++ [o]) = inside k (running_in k os) o.
  Proof. intros. unfold running_in. now rewrite fold_left_app. Qed.

  (** The property of the outputs that the invariant gives. *)
  Definition fine (o1 : list tsaid) (o : tsaid) : Prop :=
    match o with
    | OStart _ k to b => b = negb (is_on k o1) && (0 <=? to)%Z
    | OStop _ k b => b = is_on k o1
    | OCall w k => wanted k o1 = true /\ (c_api = true -> forall w', running_in w' o1 = false)
    | _ => True
    end.

  (** Calls of a thread of the user change one timer only. *)
  Lemma call_other : forall s c' k k' (c : tcall), aget (User (own k)) (ts_calls s) = Some c -> callk c = k -> callk c' = k -> k' <> k ->
    forall tms wks g d, call_of k' (TState tms wks (aset (User (own k)) c' (ts_calls s)) g d) = call_of k' s /\
      call_of k' (TState tms wks (adel (User (own k)) (ts_calls s)) g d) = call_of k' s.
  Proof.
    intros s c' k k' c H1 H2 H3 N tms wks g d. unfold call_of. cbn. rewrite aget_aset, aget_adel. destruct (eqb (User (own k')) (User (own k))) eqn:E; [|split; reflexivity].
    apply eqb_true in E. rewrite E, H1, H2, H3. destruct (Nat.eqb_spec k k'); [congruence|]. split; reflexivity.
  Qed.
  Lemma call_self : forall s k c, callk c = k -> forall tms wks g d,
    call_of k (TState tms wks (aset (User (own k)) c (ts_calls s)) g d) = Some c /\ call_of k (TState tms wks (adel (User (own k)) (ts_calls s)) g d) = None.
  Proof. intros s k c H tms wks g d. unfold call_of. cbn. rewrite aget_aset_same, aget_adel, eqb_refl, H, Nat.eqb_refl. now split. Qed.

  (** The state behind a step of a call on timer k: the new timer, the call going on or at its end, perhaps a new thread. *)
  Definition next_calls (k : nat) (c' : option tcall) (s : tstate) : list (agent * tcall) :=
    match c' with Some c' => aset (User (own k)) c' (ts_calls s) | None => adel (User (own k)) (ts_calls s) end.
  Lemma call_step_inv : forall s os o k c c' t, inv s os -> aget (User (own k)) (ts_calls s) = Some c -> callk c = k ->
    match c' with Some c' => callk c' = k /\ (nullc c' = true -> nullc c = true) | None => True end ->
    (forall k', k' <> k -> is_on k' (os ++ o) = is_on k' os /\ wanted k' (os ++ o) = wanted k' os) -> (forall w, running_in w (os ++ o) = running_in w os) ->
    forall s', ts_workers s' = ts_workers s -> ts_guard s' = ts_guard s -> ts_dead s' = false -> ts_calls s' = next_calls k c' s ->
    (forall k', tm_get k' s' = if eqb k' k then t else tm_get k' s) -> tprop k t c' (ts_workers s) (is_on k (os ++ o)) (wanted k (os ++ o)) -> inv s' (os ++ o).
  Proof.
    intros s os o k c c' t V H Hk Hc' Ho Hr s' W G D C T I. destruct V as [V1 V2 V3 V4 V5 V6]. constructor.
    - exact D.
    - intros a c0. rewrite C. unfold next_calls. destruct c' as [c'|].
      + rewrite aget_aset. destruct (eqb a (User (own k))) eqn:E; [|apply V2]. apply eqb_true in E. intro E'. injection E' as <-. destruct Hc' as [-> Hn]. split; [exact E|].
        intro A. destruct (nullc c') eqn:N; [|reflexivity]. destruct (V2 _ _ H) as [_ V2']. rewrite (Hn eq_refl) in V2'. now specialize (V2' A).
      + rewrite aget_adel. destruct (eqb a (User (own k))); [discriminate|apply V2].
    - now rewrite W.
    - intro A. rewrite W, G. now apply V4.
    - intro w. rewrite W, Hr. apply V5.
    - intro k'. destruct (Nat.eq_dec k' k) as [->|N].
      { unfold tinv. rewrite T, eqb_refl, W. replace (call_of k s') with c'; [exact I|]. destruct s' as [tms wks cs g d]. cbn in C. subst cs. unfold next_calls.
        destruct c' as [c'|]; symmetry; [apply call_self; now destruct Hc'|exact (proj2 (call_self s k c Hk tms wks g d))]. }
      apply (tinv_frame k' s s' os).
      + apply V6.
      + rewrite T. destruct (eqb k' k) eqn:E; [apply eqb_true in E; congruence|reflexivity].
      + pose proof (call_other s c k k' c H Hk Hk N (ts_timers s') (ts_workers s') (ts_guard s') (ts_dead s')) as [_ X2].
        destruct s' as [tms wks cs g d]. cbn in C. subst cs. unfold next_calls. destruct c' as [c'|]; [|exact X2].
        destruct Hc' as [Hc' _]. exact (proj1 (call_other s c' k k' c H Hk Hc' N tms wks g d)).
      + intros w x _. now rewrite W.
      + now apply Ho.
      + now apply Ho.
  Qed.

  Ltac quiet :=
    try reflexivity; try assumption;
    try (match goal with |- forall k', k' <> ?k -> _ => intros k' N; rewrite ?app_nil_r, ?is_on_snoc, ?wanted_snoc; cbn [turn want];
         try (destruct (Nat.eqb_spec k' k); [congruence|]); split; reflexivity end);
    try (match goal with |- forall w, running_in w _ = _ => intro; rewrite ?app_nil_r, ?running_snoc; reflexivity end);
    try (match goal with |- forall k', tm_get k' _ = _ => let E := fresh in intro k'; first [exact (tm_get_set k' _ _ _) | destruct (eqb k' _) eqn:E; [apply eqb_true in E; subst|]; reflexivity] end).
  Ltac tcase T1 T2 T3 T4 T5 :=
    unfold tprop; unfold phase in T1 |- *; cbn [tm_stop tm_running tm_thread starting] in *;
    match type of T4 with _ = tm_running (tm_get ?k ?s) => let TH := fresh "TH" in destruct (tm_thread (tm_get k s)) eqn:TH | _ => idtac end;
    cbn [is_some] in *;
    (split; [intuition congruence|split;
    [ let w := fresh "w" in let Hw := fresh "Hw" in let x := fresh "x" in let X := fresh "X" in
      intros w Hw; try discriminate Hw; destruct (T2 w Hw) as [x X]; exists x; intuition congruence
    | split; [exact T3|split; [intuition congruence|rewrite ?orb_true_r, ?orb_false_r in *; intuition congruence]]]]).
  Definition fine1 (os o : list tsaid) : Prop := match o with [] => True | [x] => fine os x | _ => False end.
  Lemma no_out : forall os, (forall k', is_on k' (os ++ []) = is_on k' os /\ wanted k' (os ++ []) = wanted k' os) /\ (forall w, running_in w (os ++ []) = running_in w os).
  Proof. intro os. rewrite app_nil_r. now split. Qed.
  Lemma go_call_inv : forall s os a c, inv s os -> aget a (ts_calls s) = Some c ->
    inv (fst (go_call a c s)) (os ++ snd (go_call a c s)) /\ fine1 os (snd (go_call a c s)).
  Proof.
    intros s os a c V H. destruct (v_calls _ _ V a c H) as [-> Hn]. remember (callk c) as k eqn:Hk. symmetry in Hk.
    pose proof (v_timers _ _ V k) as [T1 [T2 [T3 [T4 T5]]]].
    assert (CO : call_of k s = Some c) by (unfold call_of; rewrite H, Hk, Nat.eqb_refl; reflexivity).
    rewrite CO in *. pose proof (v_dead _ _ V) as D.
    pose proof (call_step_inv s os) as CS.
    destruct c as [k0 to nl|k0 to nl|k0 to nl|k0 to|k0|k0|k0|k0]; cbn [callk] in Hk; subst k0; cbn [go_call].
    - assert (B : inv (call_end (User (own k)) s) (os ++ [OStart (User (own k)) k to false])).
      { apply (CS [OStart (User (own k)) k to false] k _ None (tm_get k s) V H eq_refl Logic.I); quiet.
        rewrite is_on_snoc, wanted_snoc. cbn [turn want]. tcase T1 T2 T3 T4 T5. }
      destruct (tm_running (tm_get k s)) eqn:R in |- *; [|destruct (to <? 0)%Z eqn:L]; cbn [fst snd fine1 fine].
      + split; [exact B|]. now rewrite T4, R.
      + split; [exact B|]. rewrite T4, R. cbn. symmetry. apply Z.leb_gt. lia.
      + split; [|exact Logic.I]. apply (CS [] k _ (Some (KStart1 k to nl)) (tm_get k s) V H eq_refl (conj eq_refl (fun x => x))); quiet.
        rewrite app_nil_r. apply Z.ltb_ge in L. tcase T1 T2 T3 T4 T5.
    - split; [|exact Logic.I]. cbn [fst snd]. apply (CS [] k _ (Some (KStart2 k to nl)) (Tmr false (tm_running (tm_get k s)) (tm_thread (tm_get k s))) V H eq_refl (conj eq_refl (fun x => x))); quiet.
      rewrite app_nil_r. tcase T1 T2 T3 T4 T5.
    - destruct T1 as [[R [TH ST]] L]. cbn [fst snd]. rewrite TH. cbn [fst snd]. split; [|exact Logic.I]. rewrite app_nil_r.
      set (w0 := length (ts_workers s)).
      assert (FW : aget w0 (ts_workers s) = None).
      { destruct (aget w0 (ts_workers s)) as [x|] eqn:E; [|reflexivity]. apply (v_fresh _ _ V) in E. unfold w0 in E. lia. }
      assert (OL : forall w x, aget w (ts_workers s) = Some x -> eqb w w0 = false).
      { intros w x E. apply neq_eqb. intros ->. congruence. }
      destruct V as [V1 V2 V3 V4 V5 V6]. constructor; cbn [call_set tm_set wk_set ts_dead ts_calls ts_workers ts_guard].
      + exact D.
      + intros a c0. rewrite aget_aset. destruct (eqb a (User (own k))) eqn:E; [|apply V2]. apply eqb_true in E. intro E'. injection E' as <-. now split.
      + intros w x. rewrite aget_aset, aset_len. unfold amem. rewrite FW. destruct (eqb w w0) eqn:E; [apply eqb_true in E; subst w; intros _; fold w0; lia|]. intro X. apply V3 in X. lia.
      + intros A w. rewrite (V4 A w). rewrite aget_aset. split; intros [x [X1 X2]]; exists x.
        * rewrite (OL w x X1). now split.
        * destruct (eqb w w0); [injection X1 as <-; discriminate|now split].
      + intros w. rewrite (V5 w). rewrite aget_aset. split; intros [x [X1 X2]]; exists x.
        * rewrite (OL w x X1). now split.
        * destruct (eqb w w0); [injection X1 as <-; discriminate|now split].
      + intro k'. destruct (Nat.eq_dec k' k) as [->|N].
        * unfold tinv. replace (call_of k _) with (Some (KStart3 k to)) by (symmetry; apply call_self; reflexivity).
          change (tm_get k (call_set _ _ ?x)) with (tm_get k x). rewrite tm_get_set, eqb_refl. cbn [call_set tm_set wk_set ts_workers].
          unfold tprop. cbn [tm_stop tm_running tm_thread phase is_some]. split; [now repeat split|]. split; [|split; [|split; [exact T4|intros _; apply T5; now rewrite orb_true_r]]].
          -- intros w E. injection E as <-. exists (Wk k nl LBegin). rewrite aget_aset_same. cbn. repeat split; try discriminate; try exact Hn; congruence.
          -- intros w x. rewrite aget_aset. destruct (eqb w w0) eqn:E; [apply eqb_true in E; subst w; reflexivity|]. intros X1 X2 X3. specialize (T3 w x X1 X2 X3). congruence.
        * apply (tinv_frame k' s _ os); [apply V6| | | |reflexivity|reflexivity].
          -- change (tm_get k' (call_set _ _ ?x)) with (tm_get k' x). rewrite tm_get_set. destruct (eqb k' k) eqn:E; [apply eqb_true in E; congruence|reflexivity].
          -- exact (proj1 (call_other s (KStart3 k to) k k' _ H eq_refl eq_refl N _ _ _ _)).
          -- intros w x Hx. cbn [call_set tm_set wk_set ts_workers]. rewrite aget_aset. destruct (eqb w w0) eqn:E; [|reflexivity]. apply eqb_true in E. subst w. rewrite FW. split; [|discriminate].
             intro E. injection E as <-. cbn in Hx. congruence.
    - cbn [fst snd fine1 fine]. destruct T1 as [[R [TH L]] _]. split; [|rewrite T4, R; symmetry; cbn; apply Z.leb_le; exact L].
      apply (CS _ k _ None (Tmr (tm_stop (tm_get k s)) true (tm_thread (tm_get k s))) V H eq_refl Logic.I); quiet.
      rewrite is_on_snoc, wanted_snoc. cbn [turn want]. rewrite Nat.eqb_refl. 
      destruct (tm_thread (tm_get k s)) as [w0|] eqn:E; [|discriminate]. unfold tprop, phase. cbn [tm_stop tm_running tm_thread is_some orb starting]. split; [now split|].
      split; [|split; [exact T3|split; [reflexivity|exact T5]]]. intros w Hw. destruct (T2 w Hw) as [x X]. exists x. intuition congruence.
    - destruct (tm_running (tm_get k s)) eqn:R; cbn [fst snd fine1 fine].
      + split; [|exact Logic.I]. apply (CS [] k _ (Some (KStop1 k)) (tm_get k s) V H eq_refl (conj eq_refl (fun x => x))); quiet.
        rewrite app_nil_r. rewrite <- R in T4. tcase T1 T2 T3 T4 T5.
      + split; [|now rewrite T4]. apply (CS _ k _ None (tm_get k s) V H eq_refl Logic.I); quiet.
        rewrite is_on_snoc, wanted_snoc. cbn [turn want]. rewrite Nat.eqb_refl. rewrite <- R in T4. tcase T1 T2 T3 T4 T5.
    - cbn [fst snd]. split; [|exact Logic.I]. apply (CS [] k _ (Some (KStop2 k)) (Tmr true (tm_running (tm_get k s)) (tm_thread (tm_get k s))) V H eq_refl (conj eq_refl (fun x => x))); quiet.
      rewrite app_nil_r. tcase T1 T2 T3 T4 T5.
    - destruct T1 as [[R TH] _]. destruct (tm_thread (tm_get k s)) as [w|] eqn:E; [|discriminate].
      destruct (T2 w eq_refl) as [x [X1 [X2 [X3 X4]]]]. change (eqb (User (own k)) (Worker w)) with (eqb (User (own k)) (Worker w)).
      replace (eqb (User (own k)) (Worker w)) with false by (symmetry; apply neq_eqb; discriminate). rewrite X1. destruct x as [k1 nl p]. cbn in X2. subst k1.
      assert (ST : inv s (os ++ []) /\ fine1 os []) by (rewrite app_nil_r; split; [exact V|exact Logic.I]).
      destruct p; try exact ST. cbn [fst snd]. split; [|exact Logic.I].
      apply (CS [] k _ (Some (KStop3 k)) (Tmr (tm_stop (tm_get k s)) (tm_running (tm_get k s)) None) V H eq_refl (conj eq_refl (fun x => x))); quiet.
      rewrite app_nil_r. unfold tprop, phase. cbn [tm_stop tm_running tm_thread is_some orb starting]. split; [now repeat split|]. split; [discriminate|]. split; [|split; [exact T4|discriminate]].
      intros w' x' Y1 Y2 Y3. specialize (T3 w' x' Y1 Y2 Y3). injection T3 as <-. rewrite X1 in Y1. injection Y1 as <-. now contradiction Y3.
    - cbn [fst snd fine1 fine]. destruct T1 as [[R TH] _]. split; [|now rewrite T4].
      apply (CS _ k _ None (Tmr (tm_stop (tm_get k s)) false (tm_thread (tm_get k s))) V H eq_refl Logic.I); quiet.
      rewrite is_on_snoc, wanted_snoc. cbn [turn want]. rewrite Nat.eqb_refl. rewrite TH in *. unfold tprop, phase. cbn [tm_stop tm_running tm_thread is_some orb starting].
      split; [now split|]. split; [discriminate|]. split; [exact T3|]. split; [reflexivity|intro X; discriminate X].
  Qed.

  Lemma worker_step_inv : forall s os o w x p t, inv s os -> aget w (ts_workers s) = Some x -> wk_pc x <> LGone ->
    (forall k', is_on k' (os ++ o) = is_on k' os /\ wanted k' (os ++ o) = wanted k' os) ->
    forall s', ts_workers s' = aset w (Wk (wk_timer x) (wk_null x) p) (ts_workers s) -> ts_dead s' = false -> ts_calls s' = ts_calls s ->
    (forall k', tm_get k' s' = if eqb k' (wk_timer x) then t else tm_get k' s) ->
    tm_running t = tm_running (tm_get (wk_timer x) s) -> tm_thread t = tm_thread (tm_get (wk_timer x) s) -> (tm_stop t = true -> tm_stop (tm_get (wk_timer x) s) = true) ->
    (forall w', running_in w' (os ++ o) = if eqb w' w then eqb p LIn else running_in w' os) ->
    (c_api = true -> ts_guard s' = (if eqb p LIn then Some w else if eqb (wk_pc x) LIn then None else ts_guard s) /\ (p = LIn -> ts_guard s = None)) ->
    (p = LEnd -> tm_stop t = true) -> (p = LGone -> wk_null x = true \/ tm_stop (tm_get (wk_timer x) s) = true) ->
    (p <> LGone -> tm_stop t = tm_stop (tm_get (wk_timer x) s)) -> inv s' (os ++ o).
  Proof.
    intros s os o w x p t V H HG Ho s' W D C T R TH S Hr G PE PG PN. destruct V as [V1 V2 V3 V4 V5 V6]. constructor.
    - exact D.
    - intros a c. rewrite C. apply V2.
    - intros w' x'. rewrite W, aget_aset, aset_len. unfold amem. rewrite H. destruct (eqb w' w) eqn:E; [|apply V3]. apply eqb_true in E. subst w'. intros _. exact (V3 w x H).
    - intros A w'. destruct (G A) as [-> G2]. rewrite W, aget_aset. pose proof (V4 A w') as Vw. pose proof (V4 A w) as Vww.
      destruct (eqb w' w) eqn:E.
      + apply eqb_true in E. subst w'. destruct (eqb p LIn) eqn:EP.
        * apply eqb_true in EP. subst p. split; [intros _; eexists; split; reflexivity|reflexivity].
        * apply eqb_false in EP. split.
          -- destruct (eqb (wk_pc x) LIn) eqn:EX; [discriminate|]. apply eqb_false in EX. intro Y. apply Vww in Y as [x' [Y1 Y2]]. congruence.
          -- intros [x' [Y1 Y2]]. injection Y1 as <-. cbn in Y2. contradiction.
      + apply eqb_false in E. destruct (eqb p LIn) eqn:EP.
        * apply eqb_true in EP. split; [intro Y; congruence|]. intro Y. apply Vw in Y. rewrite (G2 EP) in Y. discriminate.
        * destruct (eqb (wk_pc x) LIn) eqn:EX; [|exact Vw]. apply eqb_true in EX. split; [discriminate|]. intro Y. apply Vw in Y.
          assert (Z1 : ts_guard s = Some w) by (apply Vww; now exists x). congruence.
    - intro w'. rewrite Hr, W, aget_aset. destruct (eqb w' w); [|apply V5]. split.
      + intro E. apply eqb_true in E. subst p. eexists; split; reflexivity.
      + intros [x' [Y1 Y2]]. injection Y1 as <-. cbn in Y2. subst p. apply eqb_refl.
    - intro k'. assert (CO : call_of k' s' = call_of k' s) by (unfold call_of; now rewrite C).
      destruct (Nat.eq_dec k' (wk_timer x)) as [->|N].
      + unfold tinv. rewrite CO, T, eqb_refl, W. destruct (Ho (wk_timer x)) as [-> ->]. destruct (V6 (wk_timer x)) as [T1 [T2 [T3 [T4 T5]]]].
        set (k := wk_timer x) in *. pose proof (T3 w x H eq_refl HG) as HT. unfold tprop. rewrite R, TH.
        destruct (T2 w HT) as [x0 [X1 [X2 [X3 [X4 [X5 [X6 X7]]]]]]]. rewrite H in X1. injection X1 as <-.
        split; [|split; [|split; [|split; [exact T4|exact T5]]]].
        * unfold phase in *. destruct (call_of k s) as [[]|]; rewrite ?R, ?TH; try exact T1. destruct T1 as [[T11 [T12 T13]] T14]. congruence.
        * intros w' E. rewrite HT in E. injection E as <-. exists (Wk k (wk_null x) p). rewrite aget_aset_same. cbn [wk_timer wk_null wk_pc].
          split; [reflexivity|]. split; [reflexivity|]. split; [exact X3|].
          assert (Y1 : tm_stop t = true -> call_of k s = Some (KStop2 k)) by (intro Y; apply X4; now apply S).
          split; [exact Y1|]. split; [intro Y; split; [apply Y1|]; now apply PE|]. split.
          -- intro Y. destruct (PG Y) as [Z1|Z1]; [now left|right; now apply X4].
          -- intro Y. destruct p; try (left; rewrite PN by discriminate; destruct (X7 Y) as [Z1|Z1]; [exact Z1|contradiction]). now right.
        * intros w' x'. rewrite aget_aset. destruct (eqb w' w) eqn:E; [apply eqb_true in E; subst w'; intros _ _ _; exact HT|]. apply T3.
      + apply (tinv_frame k' s s' os); [apply V6| |exact CO| |apply Ho|apply Ho].
        * rewrite T. destruct (eqb k' (wk_timer x)) eqn:E; [apply eqb_true in E; congruence|reflexivity].
        * intros w' x' Hx. rewrite W, aget_aset. destruct (eqb w' w) eqn:E; [|reflexivity]. apply eqb_true in E. subst w'. rewrite H. split; intro E; injection E as <-; cbn in Hx; congruence.
  Qed.

  Lemma in_false : forall s os w x, inv s os -> aget w (ts_workers s) = Some x -> running_in w os = eqb (wk_pc x) LIn.
  Proof.
    intros s os w x V H. pose proof (v_in _ _ V w) as E. destruct (running_in w os) eqn:R.
    - destruct (proj1 E eq_refl) as [x' [X1 X2]]. rewrite H in X1. injection X1 as <-. rewrite X2. now rewrite eqb_refl.
    - symmetry. apply neq_eqb. intro P. assert (X : false = true) by (apply E; now exists x). discriminate.
  Qed.
  Ltac wquiet P H :=
    try reflexivity; try assumption; try discriminate; try (rewrite P; discriminate); try tauto;
    try (intro; rewrite ?P; split; [assumption || reflexivity|discriminate || (intros _; assumption)]);
    try (match goal with |- forall k', is_on k' _ = _ /\ _ => intro; rewrite ?app_nil_r, ?is_on_snoc, ?wanted_snoc; split; reflexivity end);
    try (match goal with |- forall k', tm_get k' _ = _ => let E := fresh in intro k'; first [exact (tm_get_set k' _ _ _) | destruct (eqb k' _) eqn:E; [apply eqb_true in E; subst|]; reflexivity] end).
  Lemma go_worker_inv : forall s os w x, inv s os -> aget w (ts_workers s) = Some x ->
    inv (fst (go_worker c_api w x s)) (os ++ snd (go_worker c_api w x s)) /\ fine1 os (snd (go_worker c_api w x s)).
  Proof.
    intros s os w x V H. pose proof (v_dead _ _ V) as D. pose proof (in_false s os w x V H) as R.
    assert (ST : inv s (os ++ []) /\ fine1 os []) by (rewrite app_nil_r; split; [exact V|exact Logic.I]).
    pose proof (fun o p t N => worker_step_inv s os o w x p t V H N) as WS.
    assert (SAME : forall p, wk_pc x <> LIn -> p <> LIn -> forall w', running_in w' (os ++ []) = if eqb w' w then eqb p LIn else running_in w' os).
    { intros p N1 N2 w'. rewrite app_nil_r. destruct (eqb w' w) eqn:E; [|reflexivity]. apply eqb_true in E. subst w'. rewrite R.
      rewrite (neq_eqb _ _ N1). now rewrite (neq_eqb _ _ N2). }
    assert (TT : forall k', tm_get k' s = if eqb k' (wk_timer x) then tm_get (wk_timer x) s else tm_get k' s).
    { intro k'. destruct (eqb k' (wk_timer x)) eqn:E; [apply eqb_true in E; now subst|reflexivity]. }
    unfold go_worker. destruct (wk_pc x) eqn:P.
    - destruct (wk_null x && negb c_api) eqn:B; cbn [fst snd]; (split; [|exact Logic.I]).
      + apply (WS [] LGone (tm_get (wk_timer x) s)); wquiet P H.
        * apply SAME; discriminate.
        * intros _. left. now apply andb_prop in B as [B _].
      + apply (WS [] LSleep (tm_get (wk_timer x) s)); wquiet P H; try (apply SAME; discriminate); try (intros; congruence).
    - cbn [fst snd]. split; [|exact Logic.I]. apply (WS [] LCheck (tm_get (wk_timer x) s)); wquiet P H; try (apply SAME; discriminate); try (intros; congruence).
    - destruct (tm_stop (tm_get (wk_timer x) s)) eqn:S; cbn [fst snd]; (split; [|exact Logic.I]).
      + apply (WS [] LEnd (tm_get (wk_timer x) s)); wquiet P H; try (apply SAME; discriminate); try (intros; congruence).
      + apply (WS [] LEnter (tm_get (wk_timer x) s)); wquiet P H; try (apply SAME; discriminate); try (intros; congruence).
    - assert (WA : wanted (wk_timer x) os = true).
      { destruct (v_timers _ _ V (wk_timer x)) as [_ [_ [T3 [_ T5]]]]. apply T5. rewrite (T3 w x H eq_refl); [reflexivity|]. rewrite P. discriminate. }
      assert (CALL : forall w', running_in w' (os ++ [OCall w (wk_timer x)]) = if eqb w' w then eqb LIn LIn else running_in w' os).
      { intro w'. rewrite running_snoc. cbn [inside]. destruct (Nat.eqb_spec w' w) as [->|N]; [now rewrite !eqb_refl|]. now rewrite (neq_eqb _ _ N). }
      destruct c_api eqn:A.
      + destruct (ts_guard s) as [g|] eqn:G; [exact ST|].
        assert (NU : wk_null x = false).
        { destruct (v_timers _ _ V (wk_timer x)) as [_ [T2 [T3 _]]]. assert (HT : tm_thread (tm_get (wk_timer x) s) = Some w) by (apply (T3 w x H eq_refl); rewrite P; discriminate).
          destruct (T2 w HT) as [x0 [X1 [_ [X3 _]]]]. rewrite H in X1. injection X1 as <-. now apply X3. }
        rewrite NU. cbn [fst snd fine1 fine]. split.
        * apply (WS _ LIn (tm_get (wk_timer x) s)); wquiet P H. cbn. now rewrite NU.
        * split; [exact WA|]. intros _ w'. destruct (running_in w' os) eqn:E; [|reflexivity]. apply (v_in _ _ V) in E. apply (v_guard _ _ V A) in E. congruence.
      + cbn [fst snd fine1 fine]. split; [|split; [exact WA|intro A'; congruence]].
        apply (WS _ LIn (tm_get (wk_timer x) s)); wquiet P H.
    - assert (BACK : forall w', running_in w' (os ++ [OBack w (wk_timer x)]) = if eqb w' w then eqb LSleep LIn else running_in w' os).
      { intro w'. rewrite running_snoc. cbn [inside]. destruct (Nat.eqb_spec w' w) as [->|N]; [rewrite eqb_refl; reflexivity|]. now rewrite (neq_eqb _ _ N). }
      destruct c_api eqn:A; cbn [fst snd fine1 fine]; (split; [|exact Logic.I]).
      + apply (WS _ LSleep (tm_get (wk_timer x) s)); wquiet P H.
      + apply (WS _ LSleep (tm_get (wk_timer x) s)); wquiet P H.
    - cbn [fst snd]. split; [|exact Logic.I].
      assert (S : tm_stop (tm_get (wk_timer x) s) = true).
      { destruct (v_timers _ _ V (wk_timer x)) as [_ [T2 [T3 _]]]. assert (HT : tm_thread (tm_get (wk_timer x) s) = Some w) by (apply (T3 w x H eq_refl); rewrite P; discriminate).
        destruct (T2 w HT) as [x0 [X1 [_ [_ [_ [X5 _]]]]]]. rewrite H in X1. injection X1 as <-. now apply X5. }
      apply (WS [] LGone (Tmr false (tm_running (tm_get (wk_timer x) s)) (tm_thread (tm_get (wk_timer x) s)))); wquiet P H; try (apply SAME; discriminate); try (intros; congruence).
    - exact ST.
  Qed.
  Lemma step_inv : forall s os e, inv s os -> calm_event c_api own e = true ->
    inv (fst (t_step c_api s e)) (os ++ snd (t_step c_api s e)) /\ fine1 os (snd (t_step c_api s e)).
  Proof.
    intros s os e V C. pose proof (v_dead _ _ V) as D. unfold t_step. rewrite D.
    assert (ST : inv s (os ++ []) /\ fine1 os []) by (rewrite app_nil_r; split; [exact V|exact Logic.I]).
    assert (NEW : forall k c o, callk c = k -> amem (User (own k)) (ts_calls s) = false -> (c_api = true -> nullc c = false) ->
      match c with KStart0 _ _ _ => o = [OAsk (User (own k)) k] | KStop0 _ => o = [] | _ => False end -> inv (call_set (User (own k)) c s) (os ++ o) /\ fine1 os o).
    { intros k c o Hk M Hn Hc. unfold amem in M. destruct (aget (User (own k)) (ts_calls s)) as [c0|] eqn:E; [discriminate|].
      split; [|destruct c; subst; try contradiction; exact Logic.I].
      assert (Ho : forall k', is_on k' (os ++ o) = is_on k' os /\ (k' <> k -> wanted k' (os ++ o) = wanted k' os)).
      { intro k'. destruct c; try contradiction; subst o; rewrite ?app_nil_r; try now split. rewrite is_on_snoc, wanted_snoc. cbn [turn want]. split; [reflexivity|]. intro N. destruct (Nat.eqb_spec k' k); [congruence|reflexivity]. }
      destruct V as [V1 V2 V3 V4 V5 V6]. constructor; cbn [call_set ts_dead ts_calls ts_workers ts_guard].
      - exact D.
      - intros a c0. rewrite aget_aset. destruct (eqb a (User (own k))) eqn:EA; [|apply V2]. apply eqb_true in EA. intro X. injection X as <-. rewrite Hk. now split.
      - exact V3.
      - exact V4.
      - intro w. replace (running_in w (os ++ o)) with (running_in w os); [apply V5|]. destruct c; try contradiction; subst o; rewrite ?app_nil_r, ?running_snoc; reflexivity.
      - intro k'. destruct (Nat.eq_dec k' k) as [->|N].
        + unfold tinv. replace (call_of k _) with (Some c) by (symmetry; now apply call_self). change (tm_get k (call_set _ _ s)) with (tm_get k s). cbn [call_set ts_workers].
          destruct (V6 k) as [T1 [T2 [T3 [T4 T5]]]]. assert (CO : call_of k s = None) by (unfold call_of; now rewrite E). rewrite CO in *.
          unfold tprop. rewrite (proj1 (Ho k)). split; [|split; [|split; [exact T3|split; [exact T4|]]]].
          * destruct c; try contradiction; exact T1.
          * intros w Hw. destruct (T2 w Hw) as [x [X1 [X2 [X3 [X4 [X5 [X6 X7]]]]]]]. exists x. split; [exact X1|]. split; [exact X2|]. split; [exact X3|].
            split; [intro Y; now apply X4 in Y|]. split; [intro Y; now apply X5 in Y|]. split; [intro Y; apply X6 in Y as [Y|Y]; [now left|discriminate]|intro Y; destruct c; discriminate || contradiction].
          * intro Y. destruct c; try contradiction; subst o.
            -- rewrite wanted_snoc. cbn [want]. now rewrite Nat.eqb_refl.
            -- rewrite app_nil_r. apply T5. exact Y.
        + apply (tinv_frame k' s _ os); [apply V6|reflexivity| |reflexivity|apply Ho|now apply Ho].
          unfold call_of. cbn [call_set ts_calls]. rewrite aget_aset. destruct (eqb (User (own k')) (User (own k))) eqn:EA; [|reflexivity]. apply eqb_true in EA. rewrite EA, E, Hk.
          destruct (Nat.eqb_spec k k'); [congruence|reflexivity]. }
    destruct e as [a k to nl|a k|a]; cbn [calm_event] in C.
    - apply andb_prop in C as [C1 C2]. apply eqb_true in C1. subst a. unfold may_call. destruct (amem (User (own k)) (ts_calls s)) eqn:M; [exact ST|]. cbn [negb andb fst snd].
      apply NEW; [reflexivity|exact M| |reflexivity]. intro A. rewrite A in C2. cbn. now destruct nl.
    - apply eqb_true in C. subst a. unfold may_call. destruct (amem (User (own k)) (ts_calls s)) eqn:M; [exact ST|]. cbn [negb andb fst snd].
      apply NEW; [reflexivity|exact M|reflexivity|reflexivity].
    - destruct (aget a (ts_calls s)) as [c|] eqn:E; [now apply go_call_inv|]. destruct a as [u|w]; [exact ST|]. destruct (aget w (ts_workers s)) as [x|] eqn:EW; [now apply go_worker_inv|exact ST].
  Qed.
  Definition all_fine (os : list tsaid) : Prop := forall o1 o o2, os = o1 ++ o :: o2 -> fine o1 o.
  Lemma all_fine_app : forall os o, all_fine os -> fine1 os o -> all_fine (os ++ o).
  Proof.
    intros os o F F1. destruct o as [|x [|y o]]; [now rewrite app_nil_r| |contradiction]. intros o1 o2 o3 E.
    destruct (exists_last (l := o2 :: o3) ltac:(discriminate)) as [l [z Ez]]. rewrite Ez, app_assoc in E. apply app_inj_tail in E as [E1 E2]. subst z.
    destruct l as [|z l]; cbn in Ez; injection Ez as -> Eo.
    - rewrite app_nil_r in E1. subst os. exact F1.
    - subst os. eapply F. reflexivity.
  Qed.
  Lemma run_inv : forall es s os, inv s os -> all_fine os -> calm c_api own es = true ->
    inv (fst (t_run c_api s es)) (os ++ snd (t_run c_api s es)) /\ all_fine (os ++ snd (t_run c_api s es)).
  Proof.
    induction es as [|e es IH]; intros s os V F C; [cbn; rewrite app_nil_r; now split|]. cbn [calm forallb] in C. apply andb_prop in C as [C1 C2].
    destruct (step_inv s os e V C1) as [V1 F1]. cbn [t_run]. destruct (t_step c_api s e) as [s1 o]. cbn [fst snd] in *.
    destruct (IH s1 (os ++ o) V1 (all_fine_app _ _ F F1) C2) as [V2 F2]. destruct (t_run c_api s1 es) as [s2 os2]. cbn [fst snd] in *. rewrite app_assoc. now split.
  Qed.
  Lemma run_inv1 : forall es s os, inv s os -> calm c_api own es = true -> inv (fst (t_run c_api s es)) (os ++ snd (t_run c_api s es)).
  Proof.
    induction es as [|e es IH]; intros s os V C; [cbn; rewrite app_nil_r; exact V|]. cbn [calm forallb] in C. apply andb_prop in C as [C1 C2].
    destruct (step_inv s os e V C1) as [V1 F1]. cbn [t_run]. destruct (t_step c_api s e) as [s1 o]. cbn [fst snd] in *.
    pose proof (IH s1 (os ++ o) V1 C2) as V2. destruct (t_run c_api s1 es) as [s2 os2]. cbn [fst snd] in *. now rewrite app_assoc.
  Qed.
  Lemma all_fine_nil : all_fine []. Proof. intros o1 o o2 E. destruct o1; discriminate. Qed.
  Lemma calm_inv : forall es, calm c_api own es = true -> inv (fst (t_run c_api ts_init es)) (snd (t_run c_api ts_init es)) /\ all_fine (snd (t_run c_api ts_init es)).
  Proof. intros es C. exact (run_inv es ts_init [] inv_init all_fine_nil C). Qed.

  (** ** Completion *)
  Lemma go_calm : forall es, only_go es = true -> calm c_api own es = true.
  Proof. induction es as [|e es IH]; [reflexivity|]. cbn. destruct e; try discriminate. exact IH. Qed.
  Lemma only_go_app : forall a b, only_go (a ++ b) = only_go a && only_go b.
  Proof. intros. apply forallb_app. Qed.
  Lemma t_run_app : forall a b s, t_run c_api s (a ++ b) =
    (fst (t_run c_api (fst (t_run c_api s a)) b), snd (t_run c_api s a) ++ snd (t_run c_api (fst (t_run c_api s a)) b)).
  Proof.
    induction a as [|e a IH]; intros b s; [cbn; now destruct (t_run c_api s b)|]. cbn [app t_run]. destruct (t_step c_api s e) as [s1 o]. rewrite IH.
    destruct (t_run c_api s1 a) as [s2 o2]. cbn [fst snd]. now rewrite app_assoc.
  Qed.
  Lemma t_run_one : forall s e, t_run c_api s [e] = t_step c_api s e.
  Proof. intros. cbn. destruct (t_step c_api s e). now rewrite app_nil_r. Qed.
  Lemma wstep : forall s os w x, inv s os -> aget w (ts_workers s) = Some x -> t_step c_api s (EGo (Worker w)) = go_worker c_api w x s.
  Proof.
    intros s os w x V H. unfold t_step. rewrite (v_dead _ _ V), H. destruct (aget (Worker w) (ts_calls s)) as [c|] eqn:E; [|reflexivity].
    apply (v_calls _ _ V) in E as [E _]. discriminate.
  Qed.
  Lemma ustep : forall s os u c, inv s os -> aget (User u) (ts_calls s) = Some c -> t_step c_api s (EGo (User u)) = go_call (User u) c s.
  Proof. intros s os u c V H. unfold t_step. now rewrite (v_dead _ _ V), H. Qed.
  (** A worker step leaves the calls, the threads, and the other workers alone. *)
  Lemma worker_frame : forall w x s, aget w (ts_workers s) = Some x -> let s' := fst (go_worker c_api w x s) in ts_calls s' = ts_calls s /\
    (forall k, tm_thread (tm_get k s') = tm_thread (tm_get k s)) /\ (forall w', w' <> w -> aget w' (ts_workers s') = aget w' (ts_workers s)) /\
    (exists p, aget w (ts_workers s') = Some (Wk (wk_timer x) (wk_null x) p)).
  Proof.
    intros w x s H. assert (O : forall y w', w' <> w -> aget w' (aset w y (ts_workers s)) = aget w' (ts_workers s)) by (intros y w' N; now apply aget_aset_other).
    assert (X : aget w (ts_workers s) = Some (Wk (wk_timer x) (wk_null x) (wk_pc x))) by (rewrite H; now destruct x).
    unfold go_worker. destruct (wk_pc x) eqn:P; cbn zeta.
    - destruct (wk_null x && negb c_api); cbn [fst wk_set ts_calls ts_workers]; (split; [reflexivity|split; [reflexivity|split; [intros; now apply O|eexists; apply aget_aset_same]]]).
    - cbn [fst wk_set ts_calls ts_workers]; (split; [reflexivity|split; [reflexivity|split; [intros; now apply O|eexists; apply aget_aset_same]]]).
    - destruct (tm_stop _); cbn [fst wk_set ts_calls ts_workers]; (split; [reflexivity|split; [reflexivity|split; [intros; now apply O|eexists; apply aget_aset_same]]]).
    - destruct c_api; [destruct (ts_guard s); [|destruct (wk_null x)]|]; cbn [fst wk_set guard_set die ts_calls ts_workers]; (split; [reflexivity|split; [reflexivity|split; [intros; first [now apply O|reflexivity]|eexists; first [apply aget_aset_same|exact X]]]]).
    - destruct c_api; cbn [fst wk_set guard_set ts_calls ts_workers]; (split; [reflexivity|split; [reflexivity|split; [intros; now apply O|eexists; apply aget_aset_same]]]).
    - cbn [fst wk_set tm_set ts_calls ts_workers]. repeat split; [|intros; now apply O|eexists; apply aget_aset_same].
      intro k. change (tm_get k (wk_set w ?y ?z)) with (tm_get k z). rewrite tm_get_set. destruct (eqb k (wk_timer x)) eqn:E; [apply eqb_true in E; now subst|reflexivity].
    - repeat split. eexists. exact X.
  Qed.
  Definition rank (p : wpc) : nat := match p with LGone => 0 | LEnd => 1 | LCheck => 2 | LSleep => 3 | LIn => 4 | LBegin => 4 | LEnter => 5 end.
  (** If the guard is taken, its owner can give it back. *)
  Lemma free_guard : forall s os, inv s os -> exists es, only_go es = true /\ let s' := fst (t_run c_api s es) in
    (c_api = true -> ts_guard s' = None) /\ ts_calls s' = ts_calls s /\ (forall k, tm_thread (tm_get k s') = tm_thread (tm_get k s)) /\ (forall k, tm_stop (tm_get k s') = tm_stop (tm_get k s)) /\
    (forall w x, aget w (ts_workers s) = Some x -> wk_pc x <> LIn -> aget w (ts_workers s') = Some x).
  Proof.
    intros s os V. destruct (if c_api then ts_guard s else None) as [g|] eqn:G.
    - assert (A : c_api = true) by (destruct c_api; [reflexivity|discriminate]). rewrite A in G. destruct (proj1 (v_guard _ _ V A g) G) as [x [X1 X2]]. exists [EGo (Worker g)]. split; [reflexivity|].
      rewrite t_run_one, (wstep s os g x V X1), A. unfold go_worker. rewrite X2. cbn [fst guard_set wk_set ts_guard ts_calls ts_workers]. repeat split.
      intros w y Y1 Y2. rewrite aget_aset_other; [exact Y1|]. intros ->. congruence.
    - exists []. split; [reflexivity|]. cbn. repeat split; auto. intro A. now rewrite A in G.
  Qed.
  Lemma finish_worker : forall n s os w x k, inv s os -> aget w (ts_workers s) = Some x -> tm_thread (tm_get k s) = Some w -> call_of k s = Some (KStop2 k) -> rank (wk_pc x) <= n ->
    exists es, only_go es = true /\ let s' := fst (t_run c_api s es) in ts_calls s' = ts_calls s /\ tm_thread (tm_get k s') = Some w /\
      exists x', aget w (ts_workers s') = Some x' /\ wk_pc x' = LGone.
  Proof.
    induction n as [|n IH]; intros s os w x k V H TH C L.
    - exists []. split; [reflexivity|]. cbn. split; [reflexivity|]. split; [exact TH|]. exists x. split; [exact H|]. destruct (wk_pc x); cbn in L; try lia. reflexivity.
    - assert (K : wk_timer x = k /\ (wk_pc x <> LGone -> tm_stop (tm_get k s) = true)).
      { destruct (v_timers _ _ V k) as [_ [T2 _]]. destruct (T2 w TH) as [x0 [X1 [X2 [_ [_ [_ [_ X7]]]]]]]. rewrite H in X1. injection X1 as <-. split; [exact X2|].
        intro N. destruct (X7 C) as [Y|Y]; [exact Y|contradiction]. }
      destruct K as [K ST]. destruct (eq_dec (wk_pc x) LGone) as [G|G].
      { exists []. split; [reflexivity|]. cbn. split; [reflexivity|]. split; [exact TH|]. now exists x. }
      specialize (ST G).
      (* first the guard *)
      assert (PRE : exists es, only_go es = true /\ let s' := fst (t_run c_api s es) in ts_calls s' = ts_calls s /\ tm_thread (tm_get k s') = Some w /\ tm_stop (tm_get k s') = true /\
         aget w (ts_workers s') = Some x /\ (wk_pc x = LEnter -> c_api = true -> ts_guard s' = None)).
      { destruct (eq_dec (wk_pc x) LIn) as [I|I].
        - exists []. split; [reflexivity|]. cbn. repeat split; auto. congruence.
        - destruct (free_guard s os V) as [es [E1 [E2 [E3 [E4 [E5 E6]]]]]]. exists es. split; [exact E1|]. cbn zeta. rewrite E4, E5. split; [exact E3|]. split; [exact TH|]. split; [exact ST|].
          split; [now apply E6|]. intros _ A. now apply E2. }
      destruct PRE as [es1 [G1 [P1 [P2 [P3 [P4 P5]]]]]]. pose proof (run_inv1 es1 s os V (go_calm _ G1)) as V1.
      remember (fst (t_run c_api s es1)) as s1 eqn:S1.
      pose proof (worker_frame w x s1 P4) as [F1 [F2 [F3 [p F4]]]].
      assert (RK : aget w (ts_workers (fst (go_worker c_api w x s1))) = Some (Wk (wk_timer x) (wk_null x) p) -> rank p <= n).
      { intro E. unfold go_worker in E. rewrite K, P3 in E. destruct (wk_pc x) eqn:PC; cbn in L.
        - destruct (wk_null x && negb c_api); cbn in E; rewrite aget_aset_same in E; injection E as <-; cbn; lia.
        - cbn in E; rewrite aget_aset_same in E; injection E as <-; cbn; lia.
        - cbn in E; rewrite aget_aset_same in E; injection E as <-; cbn; lia.
        - destruct c_api eqn:A.
          + rewrite (P5 eq_refl eq_refl) in E. replace (wk_null x) with false in E; [cbn in E; rewrite aget_aset_same in E; injection E as <-; cbn; lia|].
            destruct (v_timers _ _ V1 k) as [_ [T2 _]]. destruct (T2 w P2) as [x0 [X1 [_ [X3 _]]]]. rewrite P4 in X1. injection X1 as <-. symmetry. apply X3. exact A.
          + cbn in E; rewrite aget_aset_same in E; injection E as <-; cbn; lia.
        - destruct c_api; cbn in E; rewrite aget_aset_same in E; injection E as <-; cbn; lia.
        - cbn in E; rewrite aget_aset_same in E; injection E as <-; cbn; lia.
        - contradiction. }
      pose proof (run_inv1 [EGo (Worker w)] s1 _ V1 eq_refl) as V2. rewrite t_run_one, (wstep s1 _ w x V1 P4) in V2.
      remember (fst (go_worker c_api w x s1)) as s2 eqn:S2.
      assert (C2 : call_of k s2 = Some (KStop2 k)) by (unfold call_of in *; now rewrite F1, P1).
      destruct (IH s2 _ w _ k V2 F4 ltac:(now rewrite F2) C2 (RK F4)) as [es2 [G2 [Q1 [Q2 Q3]]]].
      exists (es1 ++ EGo (Worker w) :: es2). split; [rewrite only_go_app, G1; exact G2|]. cbn zeta. rewrite t_run_app. cbn [fst]. rewrite <- S1.
      change (EGo (Worker w) :: es2) with ([EGo (Worker w)] ++ es2). rewrite t_run_app, t_run_one, (wstep s1 _ w x V1 P4), <- S2. cbn [fst].
      split; [congruence|]. split; [exact Q2|exact Q3].
  Qed.
  Definition crank (c : tcall) : nat :=
    match c with KStart0 _ _ _ => 4 | KStart1 _ _ _ => 3 | KStart2 _ _ _ => 2 | KStart3 _ _ => 1 | KStop0 _ => 4 | KStop1 _ => 3 | KStop2 _ => 2 | KStop3 _ => 1 end.
  Lemma finish_call : forall n s os u c, inv s os -> aget (User u) (ts_calls s) = Some c -> crank c <= n ->
    exists es, only_go es = true /\ let s' := fst (t_run c_api s es) in
      aget (User u) (ts_calls s') = None /\ (forall a, a <> User u -> aget a (ts_calls s') = aget a (ts_calls s)).
  Proof.
    induction n as [|n IH]; intros s os u c V H L; [destruct c; cbn in L; lia|].
    (* until a step of the call makes it go on *)
    assert (PRE : exists es, only_go es = true /\ let s1 := fst (t_run c_api s es) in ts_calls s1 = ts_calls s /\
       match c with KStop2 k => exists w x, tm_thread (tm_get k s1) = Some w /\ aget w (ts_workers s1) = Some x /\ wk_pc x = LGone | _ => True end).
    { destruct c; try (exists []; split; [reflexivity|]; cbn; now split).
      destruct (v_calls _ _ V _ _ H) as [E _]. cbn in E. injection E as ->.
      assert (CO : call_of k s = Some (KStop2 k)) by (unfold call_of; rewrite H; cbn; now rewrite Nat.eqb_refl).
      destruct (v_timers _ _ V k) as [T1 [T2 _]]. rewrite CO in T1. destruct T1 as [[_ T1] _]. destruct (tm_thread (tm_get k s)) as [w|] eqn:TH; [|discriminate].
      destruct (T2 w eq_refl) as [x [X1 _]]. destruct (finish_worker (rank (wk_pc x)) s os w x k V X1 TH CO (le_n _)) as [es [G [E1 [E2 [x' [E3 E4]]]]]].
      exists es. split; [exact G|]. split; [exact E1|]. now exists w, x'. }
    destruct PRE as [es1 [G1 [P1 P2]]]. pose proof (run_inv1 es1 s os V (go_calm _ G1)) as V1. remember (fst (t_run c_api s es1)) as s1 eqn:S1.
    assert (H1 : aget (User u) (ts_calls s1) = Some c) by now rewrite P1.
    pose proof (run_inv1 [EGo (User u)] s1 _ V1 eq_refl) as V2. rewrite t_run_one, (ustep s1 _ u c V1 H1) in V2.
    assert (NEXT : let s2 := fst (go_call (User u) c s1) in
      (aget (User u) (ts_calls s2) = None \/ exists c', aget (User u) (ts_calls s2) = Some c' /\ crank c' < crank c) /\ (forall a, a <> User u -> aget a (ts_calls s2) = aget a (ts_calls s1))).
    { assert (DEL : forall x, aget (User u) (ts_calls (call_end (User u) x)) = None) by (intro x; cbn; now rewrite aget_adel, eqb_refl).
      assert (SET : forall c' x, aget (User u) (ts_calls (call_set (User u) c' x)) = Some c') by (intros c' x; cbn; apply aget_aset_same).
      assert (ODEL : forall a x, a <> User u -> aget a (ts_calls (call_end (User u) x)) = aget a (ts_calls x)) by (intros a x N; cbn; now rewrite aget_adel, (neq_eqb _ _ N)).
      assert (OSET : forall c' a x, a <> User u -> aget a (ts_calls (call_set (User u) c' x)) = aget a (ts_calls x)) by (intros c' a x N; cbn; now apply aget_aset_other).
      destruct c; cbn [go_call] in *; cbn zeta.
      - destruct (tm_running _); [|destruct (timeout <? 0)%Z]; cbn [fst]; (split; [|intros; now rewrite ?ODEL, ?OSET]); [left; apply DEL|left; apply DEL|right; eexists; split; [apply SET|cbn; lia]].
      - cbn [fst]; (split; [|intros; now rewrite ?ODEL, ?OSET]). right; eexists; split; [apply SET|cbn; lia].
      - destruct (tm_thread _) eqn:TH.
        + exfalso. apply v_dead in V2. discriminate V2.
        + cbn [fst]; (split; [|intros; now rewrite ?ODEL, ?OSET]). right; eexists; split; [apply SET|cbn; lia].
      - cbn [fst]; (split; [|intros; now rewrite ?ODEL, ?OSET]). left; apply DEL.
      - destruct (tm_running _); cbn [fst]; (split; [|intros; now rewrite ?ODEL, ?OSET]); [right; eexists; split; [apply SET|cbn; lia]|left; apply DEL].
      - cbn [fst]; (split; [|intros; now rewrite ?ODEL, ?OSET]). right; eexists; split; [apply SET|cbn; lia].
      - destruct P2 as [w [x [Q1 [Q2 Q3]]]]. rewrite Q1, Q2 in *. destruct x as [kk nn pp]. cbn in Q3. subst pp.
        replace (eqb (User u) (Worker w)) with false by (symmetry; apply neq_eqb; discriminate). cbn [fst]; (split; [|intros; now rewrite ?ODEL, ?OSET]). right; eexists; split; [apply SET|cbn; lia].
      - cbn [fst]; (split; [|intros; now rewrite ?ODEL, ?OSET]). left; apply DEL. }
    destruct NEXT as [N1 N2]. remember (fst (go_call (User u) c s1)) as s2 eqn:S2.
    assert (RUN : forall es2, fst (t_run c_api s (es1 ++ EGo (User u) :: es2)) = fst (t_run c_api s2 es2)).
    { intro es2. rewrite t_run_app. cbn [fst]. rewrite <- S1. change (EGo (User u) :: es2) with ([EGo (User u)] ++ es2). rewrite t_run_app, t_run_one, (ustep s1 _ u c V1 H1), <- S2. reflexivity. }
    destruct N1 as [N1|[c' [N1 N3]]].
    - exists (es1 ++ [EGo (User u)]). split; [now rewrite only_go_app, G1|]. cbn zeta. rewrite RUN. cbn [t_run fst]. split; [exact N1|]. intros a Na. rewrite (N2 a Na). now rewrite P1.
    - destruct (IH s2 _ u c' V2 N1 ltac:(lia)) as [es2 [G2 [Q1 Q2]]]. exists (es1 ++ EGo (User u) :: es2). split; [rewrite only_go_app, G1; exact G2|]. cbn zeta. rewrite RUN.
      split; [exact Q1|]. intros a Na. rewrite (Q2 a Na), (N2 a Na). now rewrite P1.
  Qed.
  Lemma finish_all : forall l s os, inv s os -> (forall a, aget a (ts_calls s) <> None -> In a l) ->
    exists es, only_go es = true /\ ts_calls (fst (t_run c_api s es)) = [].
  Proof.
    induction l as [|a l IH]; intros s os V H.
    - exists []. split; [reflexivity|]. cbn. destruct (ts_calls s) as [|[a c] m] eqn:E; [reflexivity|]. exfalso. apply (H a). cbn. now rewrite eqb_refl.
    - destruct (aget a (ts_calls s)) as [c|] eqn:E.
      + destruct (v_calls _ _ V a c E) as [-> _]. destruct (finish_call (crank c) s os _ c V E (le_n _)) as [es1 [G1 [Q1 Q2]]].
        pose proof (run_inv1 es1 s os V (go_calm _ G1)) as V1. destruct (IH _ _ V1) as [es2 [G2 E2]].
        * intros a Ha. destruct (eq_dec a (User (own (callk c)))) as [->|N]; [contradiction|]. rewrite (Q2 a N) in Ha. apply H in Ha as [<-|Ha]; [contradiction|exact Ha].
        * exists (es1 ++ es2). split; [now rewrite only_go_app, G1|]. rewrite t_run_app. exact E2.
      + apply (IH s os V). intros a' Ha. pose proof (H a' Ha) as [<-|Hin]; [contradiction|exact Hin].
  Qed.
  Lemma completes_lemma : forall es, calm c_api own es = true -> exists es', only_go es' = true /\ ts_calls (fst (t_run c_api ts_init (es ++ es'))) = [].
  Proof.
    intros es C. destruct (calm_inv es C) as [V _]. destruct (finish_all (keys (ts_calls (fst (t_run c_api ts_init es)))) _ _ V) as [es' [G E]].
    - intros a Ha. destruct (aget a _) as [c|] eqn:E; [|contradiction]. now apply aget_in_keys in E.
    - exists es'. split; [exact G|]. now rewrite t_run_app.
  Qed.
  (** ** Liveness *)
  Definition nonull (s : tstate) : Prop := (forall w x, aget w (ts_workers s) = Some x -> wk_null x = false) /\ (forall a c, aget a (ts_calls s) = Some c -> nullc c = false).
  Lemma nonull_call : forall a c s, nonull s -> aget a (ts_calls s) = Some c -> nonull (fst (go_call a c s)).
  Proof.
    intros a c s [N1 N2] H. pose proof (N2 a c H) as NC.
    assert (DEL : forall z, nonull z -> ts_calls z = ts_calls s -> nonull (call_end a z)).
    { intros z [Z1 Z2] E. split; [exact Z1|]. intros a' c'. cbn. rewrite aget_adel. destruct (eqb a' a); [discriminate|apply Z2]. }
    assert (SET : forall c' z, nonull z -> nullc c' = false -> nonull (call_set a c' z)).
    { intros c' z [Z1 Z2] E. split; [exact Z1|]. intros a' c0. cbn. rewrite aget_aset. destruct (eqb a' a); [congruence|apply Z2]. }
    assert (T : forall k t, nonull (tm_set k t s)) by (intros; split; [exact N1|exact N2]).
    destruct c; cbn [go_call nullc] in *.
    - destruct (tm_running _); [apply DEL; [now split|reflexivity]|]. destruct (timeout <? 0)%Z; [apply DEL; [now split|reflexivity]|]. apply SET; [now split|exact NC].
    - apply SET; [apply T|exact NC].
    - destruct (tm_thread _); [split; [exact N1|exact N2]|]. apply SET; [|reflexivity]. split; [|exact N2]. intros w x. cbn. rewrite aget_aset. destruct (eqb w _); [|apply N1]. intro X. injection X as <-. exact NC.
    - apply DEL; [apply T|reflexivity].
    - destruct (tm_running _); [apply SET; [now split|reflexivity]|apply DEL; [now split|reflexivity]].
    - apply SET; [apply T|reflexivity].
    - destruct (tm_thread _) as [w|]; [|split; [exact N1|exact N2]]. destruct (eqb a (Worker w)); [split; [exact N1|exact N2]|]. destruct (aget w (ts_workers s)) as [[? ? []]|]; try (split; [exact N1|exact N2]). apply SET; [apply T|reflexivity].
    - apply DEL; [apply T|reflexivity].
  Qed.
  Lemma nonull_worker : forall w x s, nonull s -> aget w (ts_workers s) = Some x -> nonull (fst (go_worker c_api w x s)).
  Proof.
    intros w x s [N1 N2] H. pose proof (worker_frame w x s H) as [F1 [F2 [F3 [p F4]]]]. split; [|now rewrite F1].
    intros w' y Hy. destruct (Nat.eq_dec w' w) as [->|N]; [|rewrite (F3 w' N) in Hy; now apply N1 in Hy]. rewrite F4 in Hy. injection Hy as <-. cbn. now apply N1 in H.
  Qed.
  Lemma nonull_run : forall es s, nonull s -> with_callback es = true -> nonull (fst (t_run c_api s es)).
  Proof.
    induction es as [|e es IH]; intros s N W; [exact N|]. cbn [with_callback forallb] in W. apply andb_prop in W as [W1 W2]. cbn [t_run].
    assert (N' : nonull (fst (t_step c_api s e))).
    { unfold t_step. destruct (ts_dead s); [exact N|]. destruct N as [N1 N2].
      assert (SET : forall a c', nullc c' = false -> nonull (call_set a c' s)) by (intros a c' E; split; [exact N1|]; intros a' c0; cbn; rewrite aget_aset; destruct (eqb a' a); [congruence|apply N2]).
      destruct e as [a k to nl|a k|a].
      - destruct (may_call a s); [apply SET; cbn; now destruct nl|now split].
      - destruct (may_call a s); [now apply SET|now split].
      - destruct (aget a (ts_calls s)) as [c|] eqn:E; [apply nonull_call; [now split|exact E]|]. destruct a as [u|w]; [now split|]. destruct (aget w (ts_workers s)) as [x|] eqn:EW; [apply nonull_worker; [now split|exact EW]|now split]. }
    destruct (t_step c_api s e) as [s1 o]. cbn [fst] in N'. specialize (IH s1 N' W2). destruct (t_run c_api s1 es) as [s2 os]. exact IH.
  Qed.
  Definition rank2 (p : wpc) : nat := match p with LEnter => 0 | LCheck => 1 | LSleep => 2 | LIn => 3 | LBegin => 3 | LEnd | LGone => 9 end.
  Lemma reach_callback : forall n s os w x k, inv s os -> nonull s -> aget w (ts_workers s) = Some x -> tm_thread (tm_get k s) = Some w -> call_of k s = None -> rank2 (wk_pc x) <= n ->
    exists es, only_go es = true /\ In (OCall w k) (snd (t_run c_api s es)).
  Proof.
    induction n as [|n IH]; intros s os w x k V NN H TH C L; destruct (v_timers _ _ V k) as [_ [T2 _]]; destruct (T2 w TH) as [x0 [X1 [X2 [_ [X4 [X5 [X6 _]]]]]]]; rewrite H in X1; injection X1 as <-; rewrite C in *.
    - assert (PC : wk_pc x = LEnter) by (destruct (wk_pc x); cbn in L; try lia; reflexivity).
      destruct (free_guard s os V) as [es [E1 [E2 [E3 [E4 [E5 E6]]]]]]. specialize (E6 w x H ltac:(rewrite PC; discriminate)).
      pose proof (run_inv1 es s os V (go_calm _ E1)) as V1. assert (NX : wk_null x = false) by (now apply (proj1 NN) in H).
      exists (es ++ [EGo (Worker w)]). split; [now rewrite only_go_app, E1|]. rewrite t_run_app. cbn [snd]. apply in_or_app. right.
      remember (fst (t_run c_api s es)) as s1. rewrite t_run_one, (wstep s1 _ w x V1 E6). unfold go_worker. rewrite PC, NX, X2. destruct c_api; [rewrite E2 by reflexivity|]; cbn; now left.
    - assert (ST : tm_stop (tm_get k s) = false) by (destruct (tm_stop (tm_get k s)); [now specialize (X4 eq_refl)|reflexivity]).
      assert (NX : wk_null x = false) by (now apply (proj1 NN) in H).
      assert (GO : forall p, aget w (ts_workers (fst (go_worker c_api w x s))) = Some (Wk k (wk_null x) p) -> rank2 p <= n -> exists es, only_go es = true /\ In (OCall w k) (snd (t_run c_api s es))).
      { intros p E R. pose proof (worker_frame w x s H) as [F1 [F2 _]].
        pose proof (run_inv1 [EGo (Worker w)] s os V eq_refl) as V2. rewrite t_run_one, (wstep s _ w x V H) in V2. 
        destruct (IH _ _ w _ k V2 (nonull_worker _ _ _ NN H) E ltac:(now rewrite F2) ltac:(unfold call_of in *; now rewrite F1) R) as [es [G1 G2]].
        exists (EGo (Worker w) :: es). split; [exact G1|]. change (EGo (Worker w) :: es) with ([EGo (Worker w)] ++ es). rewrite t_run_app, t_run_one, (wstep s _ w x V H). cbn [snd]. apply in_or_app. now right. }
      unfold go_worker in GO. rewrite X2, ?ST, ?NX in GO. destruct (wk_pc x) eqn:PC; cbn in L.
      + cbn in GO. apply (GO LSleep); [apply aget_aset_same|cbn; lia].
      + apply (GO LCheck); [apply aget_aset_same|cbn; lia].
      + apply (GO LEnter); [apply aget_aset_same|cbn; lia].
      + apply (IH s os w x k V NN H TH C). rewrite PC. cbn. lia.
      + destruct c_api; (apply (GO LSleep); [apply aget_aset_same|cbn; lia]).
      + now destruct (X5 eq_refl).
      + destruct (X6 eq_refl); congruence.
  Qed.
  Lemma alive_lemma : forall es k, calm c_api own es = true -> with_callback es = true -> let s := fst (t_run c_api ts_init es) in
    ts_calls s = [] -> is_on k (snd (t_run c_api ts_init es)) = true ->
    exists es' w, only_go es' = true /\ In (OCall w k) (snd (t_run c_api s es')).
  Proof.
    intros es k C W s NC ON. destruct (calm_inv es C) as [V _]. fold s in V. assert (CO : call_of k s = None) by (unfold call_of; now rewrite NC).
    destruct (v_timers _ _ V k) as [T1 [T2 [_ [T4 _]]]]. rewrite CO in T1. destruct T1 as [T1 _]. cbn in T1. rewrite <- T4, ON in T1. destruct (tm_thread (tm_get k s)) as [w|] eqn:TH; [|discriminate].
    destruct (T2 w eq_refl) as [x [X1 _]]. 
    assert (NN : nonull s) by (apply nonull_run; [split; discriminate|exact W]).
    destruct (reach_callback _ s _ w x k V NN X1 TH CO (le_n _)) as [es' [G1 G2]]. now exists es', w.
  Qed.
End Calm.

(** ** Any program *)
Section Any.
  Variable c_api : bool.
  Definition is_in (w : nat) (s : tstate) : Prop := exists x, aget w (ts_workers s) = Some x /\ wk_pc x = LIn.
  Record ginv (s : tstate) (os : list tsaid) : Prop := {
    g_fresh : forall w x, aget w (ts_workers s) = Some x -> w < length (ts_workers s);
    g_in : c_api = true -> forall w, is_in w s -> ts_guard s = Some w;
    g_call : forall w c, aget (Worker w) (ts_calls s) = Some c -> is_in w s;
    g_run : forall w, running_in w os = true <-> is_in w s }.
  Definition alone (o1 : list tsaid) (o : list tsaid) : Prop := forall w k, In (OCall w k) o -> c_api = true -> forall w', running_in w' o1 = false.

  (** Calls do not move the threads of timers, but for a new one. *)
  Lemma call_effect : forall a c s, let s' := fst (go_call a c s) in
    ts_guard s' = ts_guard s /\ (forall a', a' <> a -> aget a' (ts_calls s') = aget a' (ts_calls s)) /\ (forall w k, ~ In (OCall w k) (snd (go_call a c s)) /\ ~ In (OBack w k) (snd (go_call a c s))) /\
    (ts_workers s' = ts_workers s \/ exists k nl, ts_workers s' = aset (length (ts_workers s)) (Wk k nl LBegin) (ts_workers s)).
  Proof.
    intros a c s.
    assert (SET : forall c' a' z, a' <> a -> ts_calls z = ts_calls s -> aget a' (ts_calls (call_set a c' z)) = aget a' (ts_calls s)) by (intros c' a' z N E; cbn; rewrite E; now apply aget_aset_other).
    assert (DEL : forall a' z, a' <> a -> ts_calls z = ts_calls s -> aget a' (ts_calls (call_end a z)) = aget a' (ts_calls s)) by (intros a' z N E; cbn; rewrite E, aget_adel, (neq_eqb _ _ N); reflexivity).
    assert (N0 : forall w k, ~ In (OCall w k) [] /\ ~ In (OBack w k) []) by (split; intros []).
    assert (N1 : forall a k to b w k', ~ In (OCall w k') [OStart a k to b] /\ ~ In (OBack w k') [OStart a k to b]) by (split; intros [E|[]]; discriminate).
    assert (N2 : forall a k b w k', ~ In (OCall w k') [OStop a k b] /\ ~ In (OBack w k') [OStop a k b]) by (split; intros [E|[]]; discriminate).
    destruct c; cbn [go_call]; cbn zeta.
    - destruct (tm_running _); [|destruct (timeout <? 0)%Z]; cbn [fst snd]; (split; [reflexivity|split; [intros; first [now apply SET|now apply DEL]|split; [first [apply N0|apply N1|apply N2]|now left]]]).
    - cbn [fst snd]; (split; [reflexivity|split; [intros; first [now apply SET|now apply DEL]|split; [first [apply N0|apply N1|apply N2]|now left]]]).
    - destruct (tm_thread _); cbn [fst snd]; [split; [reflexivity|split; [reflexivity|split; [apply N0|now left]]]|]. split; [reflexivity|split; [intros; now apply SET|split; [apply N0|right; eexists; eexists; reflexivity]]].
    - cbn [fst snd]; (split; [reflexivity|split; [intros; first [now apply SET|now apply DEL]|split; [first [apply N0|apply N1|apply N2]|now left]]]).
    - destruct (tm_running _); cbn [fst snd]; (split; [reflexivity|split; [intros; first [now apply SET|now apply DEL]|split; [first [apply N0|apply N1|apply N2]|now left]]]).
    - cbn [fst snd]; (split; [reflexivity|split; [intros; first [now apply SET|now apply DEL]|split; [first [apply N0|apply N1|apply N2]|now left]]]).
    - destruct (tm_thread _) as [w|]; [destruct (eqb a (Worker w)); [|destruct (aget w (ts_workers s)) as [[? ? []]|]]|]; cbn [fst snd]; (split; [reflexivity|split; [intros; first [reflexivity|now apply SET|now apply DEL]|split; [first [apply N0|apply N1|apply N2]|now left]]]).
    - cbn [fst snd]; (split; [reflexivity|split; [intros; first [now apply SET|now apply DEL]|split; [first [apply N0|apply N1|apply N2]|now left]]]).
  Qed.
  Lemma running_quiet : forall w o os, (forall w k, ~ In (OCall w k) o /\ ~ In (OBack w k) o) -> running_in w (os ++ o) = running_in w os.
  Proof.
    intros w o os H. unfold running_in. rewrite fold_left_app. generalize (fold_left (inside w) os false). induction o as [|x o IH]; intro b; [reflexivity|]. cbn [fold_left].
    rewrite IH by (intros w0 k0; split; intro E; [apply (proj1 (H w0 k0)); now right|apply (proj2 (H w0 k0)); now right]).
    destruct x as [| | |w0 k0|w0 k0]; try reflexivity; [exfalso; apply (proj1 (H w0 k0)); now left|exfalso; apply (proj2 (H w0 k0)); now left].
  Qed.
  (** What a step of the thread of a timer does to all of this. *)
  Lemma worker_effect : forall w x s, aget w (ts_workers s) = Some x -> let s' := fst (go_worker c_api w x s) in let o := snd (go_worker c_api w x s) in
    (o = [] /\ ts_guard s' = ts_guard s /\ wk_pc x <> LIn /\ (ts_workers s' = ts_workers s \/ exists p, p <> LIn /\ ts_workers s' = aset w (Wk (wk_timer x) (wk_null x) p) (ts_workers s))) \/
    (o = [OCall w (wk_timer x)] /\ wk_pc x = LEnter /\ (c_api = true -> ts_guard s = None /\ ts_guard s' = Some w) /\ ts_workers s' = aset w (Wk (wk_timer x) (wk_null x) LIn) (ts_workers s)) \/
    (o = [OBack w (wk_timer x)] /\ wk_pc x = LIn /\ ts_workers s' = aset w (Wk (wk_timer x) (wk_null x) LSleep) (ts_workers s)).
  Proof.
    intros w x s H. unfold go_worker. destruct (wk_pc x) eqn:PC; cbn zeta.
    - left. destruct (wk_null x && negb c_api); cbn; (split; [reflexivity|split; [reflexivity|split; [discriminate|right; eexists; split; [|reflexivity]; discriminate]]]).
    - left. cbn; (split; [reflexivity|split; [reflexivity|split; [discriminate|right; eexists; split; [|reflexivity]; discriminate]]]).
    - left. destruct (tm_stop _); cbn; (split; [reflexivity|split; [reflexivity|split; [discriminate|right; eexists; split; [|reflexivity]; discriminate]]]).
    - destruct c_api; [|right; left; cbn; split; [reflexivity|split; [reflexivity|split; [discriminate|reflexivity]]]].
      destruct (ts_guard s) eqn:G; [left; cbn; rewrite G; (split; [reflexivity|split; [reflexivity|split; [discriminate|now left]]])|].
      destruct (wk_null x); [left; cbn; rewrite G; (split; [reflexivity|split; [reflexivity|split; [discriminate|now left]]])|]. right; left. cbn. repeat split.
    - right. right. destruct c_api; cbn; repeat split.
    - left. cbn; (split; [reflexivity|split; [reflexivity|split; [discriminate|right; eexists; split; [|reflexivity]; discriminate]]]).
    - left. cbn. (split; [reflexivity|split; [reflexivity|split; [discriminate|now left]]]).
  Qed.
  Lemma is_in_set : forall w w' y s s', ts_workers s' = aset w y (ts_workers s) -> is_in w' s' <-> (if Nat.eqb w' w then wk_pc y = LIn else is_in w' s).
  Proof.
    intros w w' y s s' E. unfold is_in. rewrite E. destruct (Nat.eqb_spec w' w) as [->|N].
    - rewrite aget_aset_same. split; [intros [x [X1 X2]]; congruence|]. intro H. now exists y.
    - now rewrite (aget_aset_other _ _ _ _ N).
  Qed.
  Lemma fresh_set : forall w y x0 (m : list (nat * worker)), (forall w x, aget w m = Some x -> w < length m) -> aget w m = Some x0 -> forall w' x, aget w' (aset w y m) = Some x -> w' < length (aset w y m).
  Proof.
    intros w y x0 m F H w' x. rewrite aset_len. unfold amem. rewrite H, aget_aset. destruct (eqb w' w) eqn:E; [apply eqb_true in E; subst; intro; now apply F in H|apply F].
  Qed.
  Lemma ginv_step : forall s os e, ginv s os -> ginv (fst (t_step c_api s e)) (os ++ snd (t_step c_api s e)) /\ alone os (snd (t_step c_api s e)).
  Proof.
    intros s os e V. unfold t_step. assert (ST : ginv s (os ++ []) /\ alone os []) by (rewrite app_nil_r; split; [exact V|intros w k []]).
    destruct (ts_dead s); [exact ST|].
    assert (NEW : forall a c o, may_call a s = true -> (forall w k, ~ In (OCall w k) o /\ ~ In (OBack w k) o) -> ginv (call_set a c s) (os ++ o) /\ alone os o).
    { intros a c o M Q. split; [|intros w k X; now apply Q in X]. destruct V as [V1 V2 V3 V4]. constructor.
      - exact V1.
      - exact V2.
      - intros w c'. cbn. rewrite aget_aset. destruct (eqb (Worker w) a) eqn:E; [|apply V3]. apply eqb_true in E. subst a. intros _. unfold may_call in M. apply andb_prop in M as [_ M].
        destruct (aget w (ts_workers s)) as [[k0 n0 p0]|] eqn:W; [|discriminate]. exists (Wk k0 n0 p0). split; [exact W|]. destruct p0; try discriminate. reflexivity.
      - intro w. rewrite (running_quiet w o os Q). apply V4. }
    destruct e as [a k to nl|a k|a].
    - destruct (may_call a s) eqn:M; [|exact ST]. apply NEW; [exact M|]. intros w k'. split; intros [E|[]]; discriminate.
    - destruct (may_call a s) eqn:M; [|exact ST]. apply NEW; [exact M|]. intros w k'. split; intros [].
    - destruct (aget a (ts_calls s)) as [c|] eqn:EC.
      + pose proof (call_effect a c s) as [F1 [F2 [F3 F4]]]. split; [|intros w k X; now apply F3 in X]. remember (fst (go_call a c s)) as s'. destruct V as [V1 V2 V3 V4].
        assert (IN : forall w, is_in w s' <-> is_in w s).
        { intro w. destruct F4 as [F4|[k [nl F4]]]; [unfold is_in; now rewrite F4|]. rewrite (is_in_set _ w _ _ _ F4). destruct (Nat.eqb_spec w (length (ts_workers s))) as [->|]; [|reflexivity]. cbn. split; [discriminate|].
          intros [x [X _]]. apply V1 in X. lia. }
        constructor.
        * destruct F4 as [F4|[k [nl F4]]]; rewrite F4; [exact V1|]. intros w x. rewrite aset_len. unfold amem. destruct (aget (length (ts_workers s)) (ts_workers s)) eqn:E; [apply V1 in E; lia|].
          rewrite aget_aset. destruct (eqb w _) eqn:EW; [apply eqb_true in EW; subst; lia|]. intro X. apply V1 in X. lia.
        * intros A w X. rewrite F1. apply V2; [exact A|]. now apply IN.
        * intros w c' X. apply IN. destruct (eq_dec (Worker w) a) as [<-|N]; [now apply V3 in EC|]. rewrite (F2 _ N) in X. now apply V3 in X.
        * intro w. rewrite (running_quiet w _ os F3), IN. apply V4.
      + destruct a as [u|w]; [exact ST|]. destruct (aget w (ts_workers s)) as [x|] eqn:EW; [|exact ST].
        pose proof (worker_frame c_api w x s EW) as [C _]. pose proof (worker_effect w x s EW) as F. cbn zeta in F. remember (fst (go_worker c_api w x s)) as s'. remember (snd (go_worker c_api w x s)) as o. destruct V as [V1 V2 V3 V4].
        destruct F as [[-> [F1 [F2 F3]]]|[[-> [F1 [F2 F3]]]|[-> [F1 F2]]]].
        * assert (IN : forall w', is_in w' s' <-> is_in w' s).
          { intro w'. destruct F3 as [F3|[p [P F3]]]; [unfold is_in; now rewrite F3|]. rewrite (is_in_set _ w' _ _ _ F3). destruct (Nat.eqb_spec w' w) as [->|]; [|reflexivity]. cbn. split; [contradiction|].
            intros [y [Y1 Y2]]. congruence. }
          split; [|intros w' k' []]. rewrite app_nil_r. constructor.
          -- destruct F3 as [F3|[p [P F3]]]; rewrite F3; [exact V1|]. now apply fresh_set with (x0 := x).
          -- intros A w' X. rewrite F1. apply V2; [exact A|]. now apply IN.
          -- intros w' c'. rewrite C. intro X. apply IN. now apply V3 in X.
          -- intro w'. rewrite IN. apply V4.
        * assert (IN : forall w', is_in w' s' <-> w' = w \/ is_in w' s).
          { intro w'. rewrite (is_in_set _ w' _ _ _ F3). destruct (Nat.eqb_spec w' w) as [->|N]; [split; auto|]. split; [now right|]. intros [X|X]; [contradiction|exact X]. }
          assert (NO : c_api = true -> forall w', ~ is_in w' s) by (intros A w' X; apply V2 in X; [|exact A]; destruct (F2 A); congruence).
          split. 2:{ intros w' k' _ A w2. destruct (running_in w2 os) eqn:R; [|reflexivity]. exfalso. apply (NO A w2). now apply V4. }
          constructor.
          -- rewrite F3. now apply fresh_set with (x0 := x).
          -- intros A w' X. apply IN in X as [->|X]; [now destruct (F2 A)|]. exfalso. exact (NO A w' X).
          -- intros w' c'. rewrite C. intro X. apply IN. right. now apply V3 in X.
          -- intro w'. rewrite running_snoc, IN. cbn [inside]. destruct (Nat.eqb_spec w' w) as [->|N]; [split; auto|]. rewrite V4. split; [now right|]. intros [X|X]; [contradiction|exact X].
        * assert (IN : forall w', is_in w' s' <-> w' <> w /\ is_in w' s).
          { intro w'. rewrite (is_in_set _ w' _ _ _ F2). destruct (Nat.eqb_spec w' w) as [->|N]; [cbn; split; [discriminate|intros [X _]; now contradiction X]|]. split; [now split|now intros []]. }
          assert (ME : is_in w s) by now exists x.
          split; [|intros w' k' [X|[]]; discriminate]. constructor.
          -- rewrite F2. now apply fresh_set with (x0 := x).
          -- intros A w' X. apply IN in X as [N X]. apply V2 in X; [|exact A]. apply V2 in ME; [|exact A]. congruence.
          -- intros w' c'. rewrite C. intro X. apply IN. split; [intros ->; congruence|now apply V3 in X].
          -- intro w'. rewrite running_snoc, IN. cbn [inside]. destruct (Nat.eqb_spec w' w) as [->|N]; [split; [discriminate|intros [X _]; now contradiction X]|]. rewrite V4. split; [now split|now intros []].
  Qed.
  Lemma ginv_init : ginv ts_init [].
  Proof. constructor; cbn; try discriminate; [intros A w [x [X _]]; discriminate|]. intro w. split; [discriminate|]. intros [x [X _]]. discriminate. Qed.
  Lemma ginv_run : forall es s os, ginv s os -> ginv (fst (t_run c_api s es)) (os ++ snd (t_run c_api s es)) /\
    (forall o1 w k o2, snd (t_run c_api s es) = o1 ++ OCall w k :: o2 -> c_api = true -> forall w', running_in w' (os ++ o1) = false).
  Proof.
    induction es as [|e es IH]; intros s os V.
    - cbn. rewrite app_nil_r. split; [exact V|]. intros o1 w k o2 E. destruct o1; discriminate.
    - cbn [t_run]. destruct (ginv_step s os e V) as [V1 A1]. assert (SH : length (snd (t_step c_api s e)) <= 1).
      { unfold t_step. destruct (ts_dead s); [cbn; lia|]. destruct e as [a k to nl|a k|a]; [destruct (may_call a s); cbn; lia|destruct (may_call a s); cbn; lia|].
        destruct (aget a (ts_calls s)) as [c|].
        - destruct c; cbn [go_call]; repeat match goal with |- context [if ?b then _ else _] => destruct b | |- context [match ?b with _ => _ end] => destruct b end; cbn; lia.
        - destruct a as [u|w]; [cbn; lia|]. destruct (aget w (ts_workers s)) as [x|] eqn:X; [|cbn; lia]. pose proof (worker_effect w x s X) as F. cbn zeta in F. destruct F as [[-> _]|[[-> _]|[-> _]]]; cbn; lia. }
      destruct (t_step c_api s e) as [s1 o]. cbn [fst snd] in *. destruct (IH s1 (os ++ o) V1) as [V2 A2]. destruct (t_run c_api s1 es) as [s2 os2]. cbn [fst snd] in *. rewrite app_assoc. split; [exact V2|].
      intros o1 w k o2 E A w'. destruct o as [|y o].
      + rewrite app_nil_r in A2. exact (A2 o1 w k o2 E A w').
      + destruct o; [|cbn in SH; lia]. destruct o1 as [|z o1]; cbn in E; injection E as -> E.
        * rewrite app_nil_r. apply (A1 w k); [now left|exact A].
        * pose proof (A2 o1 w k o2 E A w') as X. now rewrite <- app_assoc in X.
  Qed.
End Any.
Lemma one_lemma : forall es o1 w k o2, snd (t_run true ts_init es) = o1 ++ OCall w k :: o2 -> forall w', running_in w' o1 = false.
Proof. intros es o1 w k o2 E. destruct (ginv_run true es ts_init [] (ginv_init true)) as [_ A]. exact (A o1 w k o2 E eq_refl). Qed.

(** ** Deadlock *)
Record stuck (w v k : nat) (s : tstate) : Prop := {
  st_inv : exists os, ginv true s os;
  st_call : aget (Worker w) (ts_calls s) = Some (KStop2 k);
  st_thread : tm_thread (tm_get k s) = Some v;
  st_wait : exists x, aget v (ts_workers s) = Some x /\ wk_pc x = LEnter }.
Definition mute (w : nat) (o : tsaid) : Prop := match o with OCall _ _ => False | OBack _ _ => False | OStop a _ _ => a <> Worker w | _ => True end.
Lemma call_thread : forall a c s k v x, tm_thread (tm_get k s) = Some v -> aget v (ts_workers s) = Some x -> wk_pc x = LEnter -> tm_thread (tm_get k (fst (go_call a c s))) = Some v.
Proof.
  intros a c s k v x T W P.
  assert (SET : forall k' t, (k' = k -> tm_thread t = Some v) -> tm_thread (tm_get k (tm_set k' t s)) = Some v).
  { intros k' t H. rewrite tm_get_set. destruct (eqb k k') eqn:E; [apply eqb_true in E; now apply H|exact T]. }
  destruct c; cbn [go_call]; cbn zeta.
  - destruct (tm_running _); [exact T|]. destruct (timeout <? 0)%Z; exact T.
  - apply SET. now intros ->.
  - destruct (tm_thread (tm_get k0 s)) as [w|] eqn:E; [exact T|]. cbn [fst]. change (tm_get k (call_set a ?c ?z)) with (tm_get k z). rewrite tm_get_set. destruct (eqb k k0) eqn:EK; [apply eqb_true in EK; congruence|exact T].
  - apply SET. now intros ->.
  - destruct (tm_running _); exact T.
  - apply SET. now intros ->.
  - destruct (tm_thread (tm_get k0 s)) as [w|] eqn:E; [|exact T]. destruct (eqb a (Worker w)); [exact T|]. destruct (aget w (ts_workers s)) as [[k1 n1 p1]|] eqn:EW; [|exact T]. destruct p1; try exact T.
    apply SET. intros ->. exfalso. rewrite T in E. injection E as <-. rewrite W in EW. injection EW as ->. discriminate.
  - apply SET. now intros ->.
Qed.
Lemma call_said : forall a c s a' k b, In (OStop a' k b) (snd (go_call a c s)) -> a' = a.
Proof.
  intros a c s a' k b. destruct c; cbn [go_call]; repeat match goal with |- context [if ?b then _ else _] => destruct b | |- context [match ?b with _ => _ end] => destruct b end; cbn; intros X; try contradiction;
    (destruct X as [X|[]]; congruence).
Qed.
Lemma stuck_step : forall w v k s e, stuck w v k s -> stuck w v k (fst (t_step true s e)) /\ (forall o, In o (snd (t_step true s e)) -> mute w o).
Proof.
  intros w v k s e [[os V] C T [x [X1 X2]]]. pose proof (proj1 (ginv_step true s os e V)) as V'.
  assert (IW : is_in w s) by (now apply (g_call _ _ _ V) in C). pose proof (g_in _ _ _ V eq_refl w IW) as G.
  assert (NW : w <> v) by (intros ->; destruct IW as [y [Y1 Y2]]; congruence).
  assert (NV : aget (Worker v) (ts_calls s) = None).
  { destruct (aget (Worker v) (ts_calls s)) as [c|] eqn:E; [|reflexivity]. apply (g_call _ _ _ V) in E. destruct E as [y [Y1 Y2]]. congruence. }
  assert (ST : stuck w v k s) by (constructor; [now exists os|exact C|exact T|now exists x]).
  assert (SAME : stuck w v k s /\ (forall o, In o [] -> mute w o)) by (split; [exact ST|intros o []]).
  unfold t_step in *. destruct (ts_dead s); [exact SAME|].
  assert (NEW : forall a c os', may_call a s = true -> ginv true (call_set a c s) os' -> stuck w v k (call_set a c s)).
  { intros a c os' M I. constructor; [now exists os'| |exact T|now exists x]. cbn. rewrite aget_aset. destruct (eqb (Worker w) a) eqn:E; [|exact C]. apply eqb_true in E. subst a. unfold may_call, amem in M. now rewrite C in M. }
  destruct e as [a j to nl|a j|a].
  - destruct (may_call a s) eqn:M; [|exact SAME]. split; [exact (NEW _ _ _ M V')|]. intros o [<-|[]]. exact Logic.I.
  - destruct (may_call a s) eqn:M; [|exact SAME]. split; [exact (NEW _ _ _ M V')|]. intros o [].
  - destruct (aget a (ts_calls s)) as [c|] eqn:EC.
    + destruct (eq_dec a (Worker w)) as [->|N].
      * rewrite C in EC. injection EC as <-. cbn [go_call] in *. rewrite T in *. replace (eqb (Worker w) (Worker v)) with false in * by (symmetry; apply neq_eqb; congruence). rewrite X1 in *. destruct x as [k1 n1 p1]. cbn in X2. subst p1. exact SAME.
      * pose proof (call_effect a c s) as [F1 [F2 [F3 F4]]]. split.
        -- constructor; [eexists; exact V'| |now apply (call_thread a c s k v x)|].
           ++ rewrite F2; [exact C|congruence].
           ++ exists x. split; [|exact X2]. destruct F4 as [F4|[k1 [n1 F4]]]; rewrite F4; [exact X1|]. apply (g_fresh _ _ _ V) in X1 as L. rewrite aget_aset_other; [exact X1|lia].
        -- intros o Ho. destruct o as [| |a' k' b|w' k'|w' k']; try exact Logic.I; cbn; [|now apply F3 in Ho|now apply F3 in Ho]. apply call_said in Ho. congruence.
    + destruct a as [u|u]; [exact SAME|]. destruct (aget u (ts_workers s)) as [y|] eqn:EU; [|exact SAME]. assert (NU : u <> w) by congruence.
      destruct (Nat.eq_dec u v) as [->|NE].
      * rewrite X1 in EU. injection EU as <-. unfold go_worker in *. rewrite X2, G in *. exact SAME.
      * pose proof (worker_frame true u y s EU) as [F1 [F2 [F3 _]]]. pose proof (worker_effect true u y s EU) as F. cbn zeta in F. split.
        -- constructor; [eexists; exact V'|now rewrite F1|now rewrite F2|]. exists x. split; [|exact X2]. rewrite F3; [exact X1|congruence].
        -- destruct F as [[-> _]|[[-> [_ [F _]]]|[-> [F _]]]]; [intros o []| |].
           ++ destruct (F eq_refl). congruence.
           ++ exfalso. assert (is_in u s) by now exists y. pose proof (g_in _ _ _ V eq_refl u H). congruence.
Qed.
Lemma stuck_run : forall w v k es s, stuck w v k s -> stuck w v k (fst (t_run true s es)) /\ (forall o, In o (snd (t_run true s es)) -> mute w o).
Proof.
  induction es as [|e es IH]; intros s S0; [split; [exact S0|intros o []]|]. cbn [t_run]. destruct (stuck_step w v k s e S0) as [S1 M1]. destruct (t_step true s e) as [s1 o]. cbn [fst snd] in *.
  destruct (IH s1 S1) as [S2 M2]. destruct (t_run true s1 es) as [s2 os]. cbn [fst snd] in *. split; [exact S2|]. intros x Hx. apply in_app_iff in Hx as [Hx|Hx]; auto.
Qed.
Lemma deadlock_lemma : forall es w v k x, let s := fst (t_run true ts_init es) in
  aget (Worker w) (ts_calls s) = Some (KStop2 k) -> tm_thread (tm_get k s) = Some v -> aget v (ts_workers s) = Some x -> wk_pc x = LEnter ->
  forall es', aget (Worker w) (ts_calls (fst (t_run true s es'))) = Some (KStop2 k) /\
    forall o, In o (snd (t_run true s es')) -> (forall w' k', o <> OCall w' k') /\ (forall k' b, o <> OStop (Worker w) k' b).
Proof.
  intros es w v k x s C T W P es'. assert (S0 : stuck w v k s) by (constructor; [eexists; exact (proj1 (ginv_run true es ts_init [] (ginv_init true)))|exact C|exact T|now exists x]).
  destruct (stuck_run w v k es' s S0) as [S1 M]. split; [apply (st_call _ _ _ _ S1)|]. intros o Ho. apply M in Ho. split; [intros w' k' ->|intros k' b ->]; cbn in Ho; [contradiction|congruence].
Qed.
Lemma t_run_fst : forall c_api s e es, fst (t_run c_api s (e :: es)) = fst (t_run c_api (fst (t_step c_api s e)) es).
Proof. intros. cbn [t_run]. destruct (t_step c_api s e) as [s1 o]. cbn. destruct (t_run c_api s1 es) as [s2 o2]. reflexivity. Qed.
Lemma step_call : forall c_api s a c, ts_dead s = false -> aget a (ts_calls s) = Some c -> t_step c_api s (EGo a) = go_call a c s.
Proof. intros c_api s a c D C. unfold t_step. now rewrite D, C. Qed.
Lemma self_stop_lemma : forall c_api s w k n, ts_dead s = false -> aget (Worker w) (ts_calls s) = None -> aget w (ts_workers s) = Some (Wk k n LIn) ->
  tm_running (tm_get k s) = true -> tm_thread (tm_get k s) = Some w -> ts_dead (fst (t_run c_api s (EStop (Worker w) k :: go (Worker w) 3))) = true.
Proof.
  intros c_api s w k n D C W R T. assert (M : may_call (Worker w) s = true) by (unfold may_call, amem; now rewrite C, W).
  cbn [go repeat]. rewrite t_run_fst. replace (fst (t_step c_api s (EStop (Worker w) k))) with (call_set (Worker w) (KStop0 k) s) by (unfold t_step; now rewrite D, M).
  rewrite t_run_fst, (step_call _ _ _ (KStop0 k)); [|exact D|apply aget_aset_same]. cbn [go_call]. change (tm_get k (call_set (Worker w) (KStop0 k) s)) with (tm_get k s). rewrite R. cbn [fst].
  rewrite t_run_fst, (step_call _ _ _ (KStop1 k)); [|exact D|apply aget_aset_same]. cbn [go_call fst].
  rewrite t_run_fst, (step_call _ _ _ (KStop2 k)); [|exact D|apply aget_aset_same]. cbn [go_call].
  match goal with |- context [tm_get k (call_set ?a ?c (tm_set k ?t ?z))] => replace (tm_get k (call_set a c (tm_set k t z))) with t end; [|change (tm_get k (call_set ?a ?c ?z)) with (tm_get k z); rewrite tm_get_set, eqb_refl; reflexivity].
  cbn [tm_thread]. change (tm_get k (call_set _ _ (call_set _ _ s))) with (tm_get k s). change (tm_thread (tm_get k s)) with (tm_thread (tm_get k s)). 
  replace (tm_thread _) with (Some w) by (symmetry; exact T). now rewrite eqb_refl.
Qed.
Lemma answers_lemma : forall c_api own es, calm c_api own es = true -> let os := snd (t_run c_api ts_init es) in
  (forall o1 a k to b o2, os = o1 ++ OStart a k to b :: o2 -> b = negb (is_on k o1) && (0 <=? to)%Z) /\
  (forall o1 a k b o2, os = o1 ++ OStop a k b :: o2 -> b = is_on k o1).
Proof. intros c_api own es C. destruct (calm_inv c_api own es C) as [_ F]. cbn zeta. split; intros; now apply F in H. Qed.
Lemma after_lemma : forall c_api own es, calm c_api own es = true -> forall o1 w k o2, snd (t_run c_api ts_init es) = o1 ++ OCall w k :: o2 -> wanted k o1 = true.
Proof. intros c_api own es C o1 w k o2 E. destruct (calm_inv c_api own es C) as [_ F]. now apply F in E as [E _]. Qed.
Lemma safe_timer : forall c_api own es, calm c_api own es = true -> ts_dead (fst (t_run c_api ts_init es)) = false.
Proof. intros c_api own es C. destruct (calm_inv c_api own es C) as [V _]. exact (v_dead _ _ _ _ V). Qed.
(** Behind a Stop no callback is inside. *)
Lemma out_lemma : forall c_api own es k, calm c_api own es = true -> ts_calls (fst (t_run c_api ts_init es)) = [] -> is_on k (snd (t_run c_api ts_init es)) = false ->
  forall w x, aget w (ts_workers (fst (t_run c_api ts_init es))) = Some x -> wk_timer x = k -> wk_pc x = LGone.
Proof.
  intros c_api own es k C NC ON w x W K. destruct (calm_inv c_api own es C) as [V _]. destruct (v_timers _ _ _ _ V k) as [T1 [_ [T3 [T4 _]]]].
  unfold call_of in T1. rewrite NC in T1. destruct T1 as [T1 _]. cbn in T1. rewrite <- T4, ON in T1. destruct (eq_dec (wk_pc x) LGone) as [G|G]; [exact G|]. rewrite (T3 w x W K G) in T1. discriminate.
Qed.
Lemma stop_blocks_refuted : ~ (forall es, exists es', only_go es' = true /\ ts_calls (fst (t_run true ts_init (es ++ es'))) = []).
Proof.
  intro H. destruct (H crossing) as [es' [_ E]]. rewrite (t_run_app true) in E. cbn [fst] in E.
  destruct (deadlock_lemma crossing 0 1 2 (Wk 2 false LEnter) eq_refl eq_refl eq_refl eq_refl es') as [X _]. cbn zeta in X. rewrite E in X. discriminate.
Qed.
Lemma self_no : ~ (forall c_api es, with_callback es = true -> ts_dead (fst (t_run c_api ts_init es)) = false).
Proof. intro H. specialize (H false self_stop eq_refl). discriminate. Qed.
Lemma early_no : ~ (forall c_api es o1 w a k b o2, snd (t_run c_api ts_init es) = o1 ++ OStop a k b :: o2 -> In (OCall w k) o1 -> (forall a' b', ~ In (OStop a' k b') o1) -> b = true).
Proof.
  intro H. specialize (H true early_stop [OAsk (User 0) 1; OCall 0 1] 0 (Worker 0) 1 false [] eq_refl). discriminate H.
  - right. now left.
  - intros a' b' [E|[E|[]]]; discriminate.
Qed.
Lemma both_no : ~ (forall es, with_callback es = true -> forallb (fun e => match e with EStart (Worker _) _ _ _ | EStop (Worker _) _ => false | _ => true end) es = true ->
  ts_dead (fst (t_run false ts_init es)) = false).
Proof. intro H. specialize (H both_stop eq_refl eq_refl). discriminate. Qed.
Lemma null_no : ~ (forall c_api own es, calm false own es = true -> ts_dead (fst (t_run c_api ts_init es)) = false).
Proof. intro H. specialize (H true (fun _ => 0) null_use eq_refl). discriminate. Qed.
