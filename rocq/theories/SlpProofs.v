From Verif Require Import Base SlpModel SlpSpec.

Lemma run_snoc l a s : s_run (l ++ [a]) s = s_step a (s_run l s).
Proof. unfold s_run. rewrite fold_left_app. reflexivity. Qed.
Lemma run_app l1 l2 s : s_run (l1 ++ l2) s = s_run l2 (s_run l1 s).
Proof. unfold s_run. apply fold_left_app. Qed.

(** ** Arithmetic *)
Lemma scaled_le r a b : forward r -> (a <= b)%Z -> (scaled r a <= scaled r b)%Z.
Proof. intros [N D] L. unfold scaled. apply Z.quot_le_mono; [exact D|]. apply Z.mul_le_mono_nonneg_r; assumption. Qed.
Lemma scaled_bound r a : forward r -> (a * r_num r - r_den r < r_den r * scaled r a < a * r_num r + r_den r)%Z.
Proof.
  intros [N D]. unfold scaled. pose proof (Z.quot_rem' (a * r_num r) (r_den r)) as E. assert (r_den r <> 0)%Z as Nz by lia.
  pose proof (Z.rem_bound_abs (a * r_num r) (r_den r) Nz) as B. lia.
Qed.
Lemma scaled_nonneg r a : forward r -> (0 <= a)%Z -> (0 <= scaled r a)%Z.
Proof. intros [N D] L. unfold scaled. apply Z.quot_pos; nia. Qed.
Lemma scaled_0 r : scaled r 0 = 0%Z.
Proof. unfold scaled. cbn. destruct (r_den r); reflexivity. Qed.
Lemma sim_le st a b : forward (st_rate st) -> (a <= b)%Z -> (sim_at st a <= sim_at st b)%Z.
Proof. intros F L. unfold sim_at. pose proof (scaled_le (st_rate st) (a - st_stamp st) (b - st_stamp st) F). lia. Qed.
Lemma rate_lemma r at_ st : sim_at (apply_change (NewRate r) at_ st) at_ = sim_at st at_.
Proof. unfold sim_at. cbn. rewrite Z.sub_diag, scaled_0. lia. Qed.
Lemma time_lemma t r at_ st : sim_at (apply_change (NewTime t) at_ st) at_ = t /\ sim_at (apply_change (NewBoth t r) at_ st) at_ = t.
Proof. unfold sim_at. cbn. rewrite Z.sub_diag, !scaled_0. lia. Qed.
(** Waiting for the time computed brings the simulation time near to the target. *)
Lemma wait_enough st real w now target : forward (st_rate st) -> (0 < r_num (st_rate st))%Z -> (real <= w)%Z -> (sim_at st real < target)%Z ->
  (w + Z.quot ((target - sim_at st real) * r_den (st_rate st)) (r_num (st_rate st)) <= now)%Z -> nearly (st_rate st) target (sim_at st now).
Proof.
  intros F P L Lt Le. pose proof F as [_ D]. set (n := r_num (st_rate st)) in *. set (d := r_den (st_rate st)) in *.
  set (q := Z.quot ((target - sim_at st real) * d) n) in *.
  assert ((target - sim_at st real) * d < (q + 1) * n)%Z as Q.
  { unfold q. rewrite Z.quot_div_nonneg by nia. pose proof (Z.mul_succ_div_gt ((target - sim_at st real) * d) n P). nia. }
  pose proof (sim_le st (real + q) now F ltac:(lia)) as M.
  assert (nearly (st_rate st) target (sim_at st (real + q))) as Ne.
  { unfold nearly. fold n d. unfold sim_at in *. pose proof (scaled_bound (st_rate st) (real - st_stamp st) F) as B1. pose proof (scaled_bound (st_rate st) (real + q - st_stamp st) F) as B2.
    fold n d in B1, B2. nia. }
  unfold nearly in *. fold n d in Ne |- *. nia.
Qed.

(** ** What always holds *)
Definition base (s : slp) : Prop := forward (st_rate (s_set s)) /\ match s_thread s with Reads _ r => (r <= s_now s)%Z | _ => True end.
Lemma base_step a s : legal a -> base s -> base (s_step a s).
Proof.
  destruct s as [now set th]. intros L [F R]. destruct a as [d|ago c|t|ago d| |]; cbn in *.
  - split; [exact F|]. destruct th; cbn; auto. lia.
  - destruct L as [_ C]. split; cbn.
    + destruct c; cbn in *; assumption.
    + destruct th; cbn; auto.
  - destruct th; cbn; split; cbn; auto; lia.
  - destruct th; cbn; split; cbn; auto; lia.
  - split; [exact F|]. unfold go. cbn. destruct th as [|t r|t c|t c dl told|t c|t h]; cbn; auto; unfold enter, wake.
    + destruct (_ <? _)%Z; exact I.
    + destruct (told || _)%bool; [destruct dl as [x|]; [destruct (_ <=? _)%Z|]|]; exact I.
    + destruct (_ <? _)%Z; [exact I|]. destruct (_ <? _)%Z; exact I.
  - destruct th as [|t r|t c|t c dl told|t c|t h]; try (split; [exact F|auto]; fail).
    split; [exact F|]. unfold wake; cbn. destruct dl as [x|]; [destruct (_ <=? _)%Z|]; exact I.
Qed.
Lemma base0 n : base (slp0 n).
Proof. split; [split; cbn; lia|exact I]. Qed.
Lemma base_run l n : Forall legal l -> base (s_run l (slp0 n)).
Proof.
  induction l as [|a l IH] using rev_ind; intros L; [apply base0|]. rewrite run_snoc. apply Forall_app in L as [L1 L2]. inversion L2; subst. apply base_step; auto.
Qed.
Lemma over_step a s t : base s -> is_back (s_thread s) = false -> came_back (s_step a s) t Over -> (t <= sim_now (s_step a s))%Z.
Proof.
  destruct s as [now set th].  intros [F R] N B. unfold came_back in B. destruct a as [d|ago c|t0|ago d| |]; cbn in *.
  - rewrite B in N. discriminate.
  - destruct th; cbn in *; discriminate.
  - destruct th; cbn in *; discriminate.
  - destruct th; cbn in *; discriminate.
  - unfold sim_now, go in *. cbn in *. destruct th as [|t1 r|t1 c|t1 c dl told|t1 c|t1 h]; cbn in *; try discriminate; unfold enter, wake in B; cbn in B.
    + destruct (Z.ltb_spec (sim_at set r) t1); [discriminate|]. injection B as <-. pose proof (sim_le set r now F R). lia.
    + destruct (told || _)%bool; [destruct dl as [x|]; [destruct (_ <=? _)%Z|]|]; discriminate.
    + destruct (_ <? _)%Z; [discriminate|]. destruct (Z.ltb_spec (sim_at set now) t1); [discriminate|]. injection B as <-. lia.
  - destruct th as [|t1 r|t1 c|t1 c dl told|t1 c|t1 h]; cbn in *; try congruence. unfold wake in B. destruct dl as [x|]; [destruct (_ <=? _)%Z|]; discriminate.
Qed.
Lemma over_lemma l a n t : Forall legal (l ++ [a]) -> is_back (s_thread (s_run l (slp0 n))) = false -> came_back (s_run (l ++ [a]) (slp0 n)) t Over ->
  (t <= sim_now (s_run (l ++ [a]) (slp0 n)))%Z.
Proof. intros L N B. apply Forall_app in L as [L _]. rewrite run_snoc in *. exact (over_step a _ t (base_run l n L) N B). Qed.

(** ** Careful histories *)
Definition fits (s : slp) : Prop :=
  match s_thread s with
  | Gap t c => exists real, (real <= s_now s)%Z /\ c = copy_at (s_set s) real /\ (cy_sim c < t)%Z
  | Waits t c dl false => exists real w, (real <= w <= s_now s)%Z /\ c = copy_at (s_set s) real /\ dl = deadline w t c /\ (cy_sim c < t)%Z
  | _ => True
  end.
Lemma fits_step a s : legal a -> prompt a s -> base s -> fits s -> fits (s_step a s).
Proof.
  destruct s as [now set th].  intros L P [F R] I. unfold fits in *. destruct a as [d|ago c|t|ago d| |]; cbn in *.
  - destruct th as [|t1 r|t1 c|t1 c dl [|]|t1 c|t1 h]; cbn; auto.
    + destruct I as (real & A & B & C). exists real. repeat split; auto. lia.
    + destruct I as (real & w & A & B & C & D). exists real, w. repeat split; auto; lia.
  - destruct th as [|t1 r|t1 c1|t1 c1 dl [|]|t1 c1|t1 h]; cbn; auto. contradiction.
  - destruct th as [|t1 r|t1 c1|t1 c1 dl [|]|t1 c1|t1 h]; cbn; auto.
  - destruct th as [|t1 r|t1 c1|t1 c1 dl [|]|t1 c1|t1 h]; cbn; auto.
  - unfold go; cbn. destruct th as [|t1 r|t1 c1|t1 c1 dl told|t1 c1|t1 h]; cbn; auto; unfold enter, wake; cbn.
    + destruct (Z.ltb_spec (sim_at set r) t1); [|exact Logic.I]. exists r. auto.
    + destruct I as (real & A & B & C). exists real, now. repeat split; auto; lia.
    + destruct (told || due now dl)%bool eqn:E; [destruct dl as [x|]; [destruct (_ <=? _)%Z|]; exact Logic.I|]. apply orb_false_iff in E as [-> _]. exact I.
    + destruct (_ <? _)%Z; [exact Logic.I|]. destruct (Z.ltb_spec (sim_at set now) t1); [|exact Logic.I]. exists now. repeat split; auto. lia.
  - destruct th as [|t1 r|t1 c1|t1 c1 dl told|t1 c1|t1 h]; cbn; auto. unfold wake. destruct dl as [x|]; [destruct (_ <=? _)%Z|]; exact Logic.I.
Qed.
Lemma careful_app l1 : forall l2 s, careful (l1 ++ l2) s <-> careful l1 s /\ careful l2 (s_run l1 s).
Proof. induction l1 as [|a l1 IH]; intros l2 s; cbn; [tauto|]. rewrite IH. tauto. Qed.
Lemma fits_run l n : Forall legal l -> careful l (slp0 n) -> fits (s_run l (slp0 n)).
Proof.
  induction l as [|a l IH] using rev_ind; intros L C; [exact I|]. rewrite run_snoc. pose proof L as L0. apply Forall_app in L as [L1 L2]. inversion L2; subst.
  apply careful_app in C as [C1 [C2 _]]. apply fits_step; auto. apply base_run. exact L1.
Qed.
Lemma timeout_step a s t : legal a -> prompt a s -> base s -> fits s -> is_back (s_thread s) = false -> came_back (s_step a s) t Timeout ->
  nearly (st_rate (s_set (s_step a s))) t (sim_now (s_step a s)).
Proof.
  destruct s as [now set th].  intros L P [F R] I N B. unfold came_back in B. unfold fits in I. unfold sim_now.
  assert (forall t1 c dl told, th = Waits t1 c dl told -> wake now t1 c dl = Back t Timeout -> (told = true -> due now dl = false) ->
    nearly (st_rate set) t (sim_at set now)) as K.
  { intros t1 c dl told E W Nt. unfold wake in W. destruct dl as [x|]; [|discriminate]. destruct (Z.leb_spec x now) as [Le|]; [|discriminate]. injection W as <-.
    destruct told; [specialize (Nt eq_refl); cbn in Nt; apply Z.leb_gt in Nt; lia|]. rewrite E in I. destruct I as (real & w & A & -> & C & D).
    unfold deadline in C. cbn in C. destruct (Z.ltb_spec 0 (r_num (st_rate set))); [|discriminate]. injection C as ->. cbn in D.
    apply (wait_enough set real w); auto; lia. }
  destruct a as [d|ago c|t0|ago d| |]; cbn in *.
  - rewrite B in N. discriminate.
  - destruct th; cbn in *; discriminate.
  - destruct th; cbn in *; discriminate.
  - destruct th; cbn in *; discriminate.
  - unfold go in *. cbn in *. destruct th as [|t1 r|t1 c|t1 c dl told|t1 c|t1 h]; cbn in *; try discriminate; unfold enter in B; cbn in B.
    + destruct (_ <? _)%Z; discriminate.
    + destruct (told || due now dl)%bool; [|discriminate]. eapply K; eauto. intros ->. exact P.
    + destruct (_ <? _)%Z; [discriminate|]. destruct (_ <? _)%Z; discriminate.
  - destruct th as [|t1 r|t1 c|t1 c dl told|t1 c|t1 h]; cbn in *; try congruence. eapply K; eauto. intros ->. exact P.
Qed.
Lemma timeout_lemma l a n t : Forall legal (l ++ [a]) -> careful (l ++ [a]) (slp0 n) -> is_back (s_thread (s_run l (slp0 n))) = false ->
  came_back (s_run (l ++ [a]) (slp0 n)) t Timeout -> nearly (st_rate (s_set (s_run (l ++ [a]) (slp0 n)))) t (sim_now (s_run (l ++ [a]) (slp0 n))).
Proof.
  intros L C N B. pose proof L as L0. apply Forall_app in L as [L1 L2]. inversion L2; subst. apply careful_app in C as [C1 [C2 _]]. rewrite run_snoc in *.
  apply timeout_step; auto; [apply base_run|apply fits_run]; assumption.
Qed.

(** ** Only the rate is set, and at once *)
Definition copied_of (th : sleeper) : option copied := match th with Gap _ c | Waits _ c _ _ | Woken _ c => Some c | _ => None end.
Record steady (s : slp) : Prop := {
  y_stamp : (st_stamp (s_set s) <= s_now s)%Z;
  y_last : forall c, copied_of (s_thread s) = Some c -> (cy_last c <= st_last (s_set s))%Z;
  y_back : forall t, s_thread s <> Back t Reset }.
Lemma steady_step a s : legal a -> rates_only a -> base s -> steady s -> steady (s_step a s) /\ (sim_now s <= sim_now (s_step a s))%Z.
Proof.
  destruct s as [now set th]. intros L O [F R] [Y1 Y2 Y3]. cbn in *. destruct a as [d|ago c|t|ago d| |]; cbn in *.
  - split; [constructor; cbn; auto; lia|]. unfold sim_now; cbn. apply sim_le; [exact F|lia].
  - destruct O as [-> [r ->]]. rewrite Z.sub_0_r. cbn in L. destruct L as [_ [Ln Ld]]. split.
    + constructor; cbn; [lia| |destruct th; cbn; auto; discriminate].
      intros c C. assert (copied_of th = Some c) as C' by (destruct th; exact C). specialize (Y2 c C'). pose proof (scaled_nonneg (st_rate set) (now - st_stamp set) F ltac:(lia)). lia.
    + unfold sim_now; cbn. pose proof (rate_lemma r now set) as E. cbn in E. lia.
  - destruct th; split; try (constructor; cbn; auto; discriminate); unfold sim_now; cbn; lia.
  - destruct th; split; try (constructor; cbn; auto; discriminate); unfold sim_now; cbn; lia.
  - split; [|unfold sim_now, go; cbn; lia]. unfold go; cbn. destruct th as [|t1 r|t1 c1|t1 c1 dl told|t1 c1|t1 h]; cbn in *; unfold enter, wake, copy_at; cbn.
    + constructor; cbn; auto; discriminate.
    + destruct (_ <? _)%Z; constructor; cbn; auto; try discriminate. intros c C. injection C as <-. cbn. lia.
    + constructor; cbn; auto; discriminate.
    + destruct (told || due now dl)%bool; [destruct dl as [x|]; [destruct (_ <=? _)%Z|]|]; constructor; cbn; auto; discriminate.
    + specialize (Y2 c1 eq_refl). destruct (Z.ltb_spec (st_last set) (cy_last c1)); [lia|]. destruct (_ <? _)%Z; constructor; cbn; auto; try discriminate. intros c C. injection C as <-. cbn. lia.
    + constructor; cbn; auto.
  - destruct th as [|t1 r|t1 c1|t1 c1 dl told|t1 c1|t1 h]; split; try (constructor; cbn; auto; fail); try (unfold sim_now; cbn; lia).
    unfold wake. destruct dl as [x|]; [destruct (_ <=? _)%Z|]; constructor; cbn; auto; discriminate.
Qed.
Lemma steady0 n : steady (slp0 n).
Proof. constructor; cbn; try discriminate; lia. Qed.
Lemma steady_run l n : Forall legal l -> Forall rates_only l -> steady (s_run l (slp0 n)).
Proof.
  induction l as [|a l IH] using rev_ind; intros L O; [apply steady0|]. rewrite run_snoc. apply Forall_app in L as [L1 L2]. apply Forall_app in O as [O1 O2]. inversion L2; subst. inversion O2; subst.
  apply steady_step; auto. apply base_run. exact L1.
Qed.
Lemma no_reset_lemma l n t : Forall legal l -> Forall rates_only l -> ~ came_back (s_run l (slp0 n)) t Reset.
Proof. intros L O. exact (y_back _ (steady_run l n L O) t). Qed.
Lemma ascends_lemma l l' n : Forall legal (l ++ l') -> Forall rates_only (l ++ l') -> (sim_now (s_run l (slp0 n)) <= sim_now (s_run (l ++ l') (slp0 n)))%Z.
Proof.
  induction l' as [|a l' IH] using rev_ind; intros L O; [rewrite app_nil_r; lia|]. rewrite app_assoc in *. pose proof L as L0. pose proof O as O0.
  apply Forall_app in L as [L1 L2]. apply Forall_app in O as [O1 O2]. inversion L2; subst. inversion O2; subst. specialize (IH L1 O1). rewrite run_snoc.
  pose proof (proj2 (steady_step a _ H1 H3 (base_run _ n L1) (steady_run _ n L1 O1))). lia.
Qed.

(** ** Coming back *)
Lemma elsewhere_waits l : forall s t c dl told, Forall elsewhere l -> s_thread s = Waits t c dl told -> exists told', s_thread (s_run l s) = Waits t c dl told'.
Proof.
  induction l as [|a l IH]; intros s t c dl told F E; [exists told; exact E|]. inversion F; subst. destruct a; try contradiction; cbn.
  - apply (IH _ t c dl told); auto.
  - apply (IH _ t c dl true); auto. cbn. rewrite E. reflexivity.
Qed.
Lemma limit_lemma s l t c d told : s_thread s = Waits t c (Some d) told -> Forall elsewhere l -> (d <= s_now (s_run l s))%Z -> came_back (s_run (l ++ [Go]) s) t Timeout.
Proof.
  intros E F Le. destruct (elsewhere_waits l s t c (Some d) told F E) as [told' E']. unfold came_back. rewrite run_snoc. cbn. unfold go. rewrite E'. cbn.
  destruct (Z.leb_spec d (s_now (s_run l s))); [|lia]. rewrite orb_true_r. reflexivity.
Qed.
Lemma alone_lemma s t d : (0 < r_num (st_rate (s_set s)))%Z -> s_thread s = Reads t (s_now s) -> (sim_now s < t)%Z ->
  d = Z.quot ((t - sim_now s) * r_den (st_rate (s_set s))) (r_num (st_rate (s_set s))) ->
  came_back (s_run [Go; Go; Tick d; Go] s) t Timeout /\ forall e, (0 <= e < d)%Z -> is_back (s_thread (s_run [Go; Go; Tick e; Go] s)) = false.
Proof.
  destruct s as [now set th]. unfold came_back, sim_now. cbn [s_set s_now s_thread]. intros P -> Lt D.
  assert (enter t (copy_at set now) = Gap t (copy_at set now)) as E by (unfold enter; cbn; destruct (Z.ltb_spec (sim_at set now) t); [reflexivity|lia]).
  assert (deadline now t (copy_at set now) = Some (now + d)%Z) as E2 by (unfold deadline; cbn; destruct (Z.ltb_spec 0 (r_num (st_rate set))); [rewrite D; reflexivity|lia]).
  split.
  - unfold s_run, go; cbn [fold_left s_step s_thread s_set s_now go]. unfold go; cbn [s_thread s_set s_now]. rewrite E. cbn [s_thread s_set s_now]. rewrite E2. cbn [s_thread orb due wake].
    destruct (Z.leb_spec (now + d) (now + d)); [reflexivity|lia].
  - intros e Le. unfold s_run; cbn [fold_left s_step]. unfold go; cbn [s_thread s_set s_now]. rewrite E. cbn [s_thread s_set s_now]. rewrite E2. cbn [s_thread orb due wake].
    destruct (Z.leb_spec (now + d) (now + e)); [lia|reflexivity].
Qed.
Lemma abort_lemma s t c dl told ago ch : s_thread s = Waits t c dl told -> (st_last (apply_change ch (s_now s - ago) (s_set s)) < cy_last c)%Z ->
  is_back (s_thread (s_run [Set_ ago ch; Go; Go] s)) = true.
Proof.
  destruct s as [now set th]. cbn [s_set s_now s_thread]. intros -> Lt. unfold s_run; cbn [fold_left s_step s_thread s_set s_now notify]. unfold go; cbn [s_thread s_set s_now orb]. unfold wake.
  destruct dl as [x|]; [destruct (x <=? now)%Z; [reflexivity|]|]; destruct (Z.ltb_spec (st_last (apply_change ch (now - ago) set)) (cy_last c)); auto; lia.
Qed.
(** Who waits without limit and is not told waits on. *)
Lemma forever_lemma l : forall s t c, Forall alone l -> s_thread s = Waits t c None false -> s_thread (s_run l s) = Waits t c None false.
Proof.
  induction l as [|a l IH]; intros s t c F E; [exact E|]. inversion F; subst. cbn. apply IH; auto. destruct a; try contradiction; cbn; [exact E|]. unfold go. rewrite E. reflexivity.
Qed.

Lemma settings_lemma r t at_ st d :
  sim_at (apply_change (NewRate r) at_ st) (at_ + d)%Z = (sim_at st at_ + Z.quot (d * r_num r) (r_den r))%Z /\
  sim_at (apply_change (NewTime t) at_ st) (at_ + d)%Z = (t + Z.quot (d * r_num (st_rate st)) (r_den (st_rate st)))%Z /\
  sim_at (apply_change (NewBoth t r) at_ st) (at_ + d)%Z = (t + Z.quot (d * r_num r) (r_den r))%Z.
Proof. unfold sim_at, scaled. cbn [apply_change st_rate st_last st_stamp]. replace (at_ + d - at_)%Z with d by lia. repeat split; apply Z.add_comm || (rewrite Z.add_comm; f_equal; apply Z.add_comm). Qed.
Lemma sleep_for_lemma s d e : (0 < r_num (st_rate (s_set s)))%Z -> s_thread s = Awake -> (0 < d)%Z -> e = Z.quot (d * r_den (st_rate (s_set s))) (r_num (st_rate (s_set s))) ->
  came_back (s_run [SleepFor 0 d; Go; Go; Tick e; Go] s) (sim_now s + d)%Z Timeout /\
  forall x, (0 <= x < e)%Z -> is_back (s_thread (s_run [SleepFor 0 d; Go; Go; Tick x; Go] s)) = false.
Proof.
  intros P T D E. destruct s as [n st th]. cbn [s_set s_thread] in *. subst th.
  pose proof (alone_lemma (s_step (SleepFor 0 d) (Slp n st Awake)) (sim_now (Slp n st Awake) + d)%Z e) as A.
  change (s_run (SleepFor 0 d :: ?l) ?s) with (s_run l (s_step (SleepFor 0 d) s)).
  change (sim_now (s_step (SleepFor 0 d) (Slp n st Awake))) with (sim_now (Slp n st Awake)) in A.
  change (s_set (s_step (SleepFor 0 d) (Slp n st Awake))) with st in A.
  apply A; [exact P| |lia|].
  - unfold sim_now. cbn [s_step s_thread s_set s_now]. rewrite Z.sub_0_r. reflexivity.
  - rewrite E. f_equal. f_equal. lia.
Qed.
