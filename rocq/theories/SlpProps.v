(** C105: sleeping in simulation time. *)
From Verif Require Import Base SlpModel SlpSpec SlpProofs.

(** Setting the rate does not make the time jump, and from then on it runs at that rate; setting the
    time makes it what was set, and it goes on at the rate set with it, or else at the one it had. *)
Theorem c105_settings r t at_ st d :
  sim_at (apply_change (NewRate r) at_ st) (at_ + d)%Z = (sim_at st at_ + Z.quot (d * r_num r) (r_den r))%Z /\
  sim_at (apply_change (NewTime t) at_ st) (at_ + d)%Z = (t + Z.quot (d * r_num (st_rate st)) (r_den (st_rate st)))%Z /\
  sim_at (apply_change (NewBoth t r) at_ st) (at_ + d)%Z = (t + Z.quot (d * r_num r) (r_den r))%Z.
Proof. exact (settings_lemma r t at_ st d). Qed.
Print Assumptions c105_settings.
Example c105_settings_ex : sim_at (Setting sx_half 7 100) 201 = 57%Z /\ sim_at (apply_change (NewRate sx_real) 201 (Setting sx_half 7 100)) 203 = 59%Z.
Proof. split; reflexivity. Qed.

(** As long as only rates are set, by callers that use the clock at once, the time never goes back. *)
Theorem c105_ascends_partial l l' n : Forall legal (l ++ l') -> Forall rates_only (l ++ l') ->
  (sim_now (s_run l (slp0 n)) <= sim_now (s_run (l ++ l') (slp0 n)))%Z.
Proof. exact (ascends_lemma l l' n). Qed.
Print Assumptions c105_ascends_partial.
Example c105_ascends_partial_ex : Forall legal sx_change /\ Forall rates_only sx_change /\ sim_now (s_run sx_change (slp0 5)) = 100%Z.
Proof.
  split; [|split; [|reflexivity]]; repeat apply Forall_cons; try apply Forall_nil; cbn; unfold forward; cbn; auto; try lia.
  split; [reflexivity|exists sx_half; reflexivity].
Qed.

(** Whoever comes back because the time was found to be over comes back at or after it. *)
Theorem c105_over l a n t : Forall legal (l ++ [a]) -> is_back (s_thread (s_run l (slp0 n))) = false -> came_back (s_run (l ++ [a]) (slp0 n)) t Over ->
  (t <= sim_now (s_run (l ++ [a]) (slp0 n)))%Z.
Proof. exact (over_lemma l a n t). Qed.
Print Assumptions c105_over.
Example c105_over_ex : came_back (s_run [Set_ 0 (NewTime 100); Sleep 70; Go] (slp0 5)) 70 Over.
Proof. reflexivity. Qed.

(** Whoever comes back because the waiting time is over comes back when the target is reached but
    for the rounding, if nothing was set between the copying and the waiting and a notified thread
    wakes up before its waiting time is over. *)
Theorem c105_reached_partial l a n t : Forall legal (l ++ [a]) -> careful (l ++ [a]) (slp0 n) -> is_back (s_thread (s_run l (slp0 n))) = false ->
  came_back (s_run (l ++ [a]) (slp0 n)) t Timeout -> nearly (st_rate (s_set (s_run (l ++ [a]) (slp0 n)))) t (sim_now (s_run (l ++ [a]) (slp0 n))).
Proof. exact (timeout_lemma l a n t). Qed.
Print Assumptions c105_reached_partial.
Example c105_reached_partial_ex : careful sx_change (slp0 5) /\ came_back (s_run sx_change (slp0 5)) 100 Timeout /\ s_now (s_run sx_change (slp0 5)) = 165%Z.
Proof. vm_compute. repeat split. Qed.

(** A thread alone sleeps exactly as long as the rate says, if this is positive. *)
Theorem c105_exact s t d : (0 < r_num (st_rate (s_set s)))%Z -> s_thread s = Reads t (s_now s) -> (sim_now s < t)%Z ->
  d = Z.quot ((t - sim_now s) * r_den (st_rate (s_set s))) (r_num (st_rate (s_set s))) ->
  came_back (s_run [Go; Go; Tick d; Go] s) t Timeout /\ forall e, (0 <= e < d)%Z -> is_back (s_thread (s_run [Go; Go; Tick e; Go] s)) = false.
Proof. exact (alone_lemma s t d). Qed.
Print Assumptions c105_exact.
Example c105_exact_ex : came_back (s_run [Set_ 0 (NewRate sx_half); Sleep 100; Go; Go; Tick 200; Go] (slp0 5)) 100 Timeout.
Proof. reflexivity. Qed.
(** The same for a duration: that much simulation time, counted from now. *)
Theorem c105_duration s d e : (0 < r_num (st_rate (s_set s)))%Z -> s_thread s = Awake -> (0 < d)%Z -> e = Z.quot (d * r_den (st_rate (s_set s))) (r_num (st_rate (s_set s))) ->
  came_back (s_run [SleepFor 0 d; Go; Go; Tick e; Go] s) (sim_now s + d)%Z Timeout /\
  forall x, (0 <= x < e)%Z -> is_back (s_thread (s_run [SleepFor 0 d; Go; Go; Tick x; Go] s)) = false.
Proof. exact (sleep_for_lemma s d e). Qed.
Print Assumptions c105_duration.
Example c105_duration_ex : came_back (s_run [Set_ 0 (NewRate sx_half); Tick 10; SleepFor 0 100; Go; Go; Tick 200; Go] (slp0 5)) 105 Timeout.
Proof. reflexivity. Qed.
(** Whatever is set meanwhile, nobody waits longer than the limit computed at the beginning. *)
Theorem c105_limit s l t c d told : s_thread s = Waits t c (Some d) told -> Forall elsewhere l -> (d <= s_now (s_run l s))%Z -> came_back (s_run (l ++ [Go]) s) t Timeout.
Proof. exact (limit_lemma s l t c d told). Qed.
Print Assumptions c105_limit.
Example c105_limit_ex : s_thread (s_run [Sleep 100; Go; Go] (slp0 5)) = Waits 100 (Copied 0 sx_real 0) (Some 105%Z) false.
Proof. reflexivity. Qed.

(** As long as only rates are set, by callers that use the clock at once, nobody comes back because
    the time was set back. *)
Theorem c105_no_abort_partial l n t : Forall legal l -> Forall rates_only l -> ~ came_back (s_run l (slp0 n)) t Reset.
Proof. exact (no_reset_lemma l n t). Qed.
Print Assumptions c105_no_abort_partial.
Example c105_no_abort_partial_ex : came_back (s_run [Set_ 0 (NewTime 50); Sleep 100; Go; Go; Set_ 0 (NewTime 49); Go; Go] (slp0 5)) 100 Reset.
Proof. reflexivity. Qed.
(** A waiting thread comes back if the time is set back and the thread then runs before the next
    setting. *)
Theorem c105_abort_partial s t c dl told ago ch : s_thread s = Waits t c dl told -> (st_last (apply_change ch (s_now s - ago) (s_set s)) < cy_last c)%Z ->
  is_back (s_thread (s_run [Set_ ago ch; Go; Go] s)) = true.
Proof. exact (abort_lemma s t c dl told ago ch). Qed.
Print Assumptions c105_abort_partial.
Example c105_abort_partial_ex : s_thread (s_run [Set_ 0 (NewTime 50); Sleep 100; Go; Go] (slp0 5)) = Waits 100 (Copied 50 sx_real 50) (Some 55%Z) false /\
  st_last (apply_change (NewTime 49) 5 (s_set (s_run [Set_ 0 (NewTime 50); Sleep 100; Go; Go] (slp0 5)))) = 49%Z.
Proof. split; reflexivity. Qed.

(** A rate set between the copying and the waiting is not noticed: the thread comes back long
    before the target, however slow the new rate is. *)
Theorem c105_gap_refuted : ~ (forall l a n t, Forall legal (l ++ [a]) -> Forall rates_only (l ++ [a]) -> is_back (s_thread (s_run l (slp0 n))) = false ->
  came_back (s_run (l ++ [a]) (slp0 n)) t Timeout -> nearly (st_rate (s_set (s_run (l ++ [a]) (slp0 n)))) t (sim_now (s_run (l ++ [a]) (slp0 n)))).
Proof.
  intros H. specialize (H [Sleep 100; Go; Set_ 0 (NewRate sx_slow); Go; Tick 100] Go 5%Z 100%Z). vm_compute in H.
  discriminate H; try reflexivity; repeat constructor; try discriminate. exists sx_slow. reflexivity.
Qed.
Print Assumptions c105_gap_refuted.
(** The same if the thread was waiting, was notified in time and got the processor late. *)
Theorem c105_late_refuted : ~ (forall l a n t, Forall legal (l ++ [a]) -> Forall rates_only (l ++ [a]) -> is_back (s_thread (s_run l (slp0 n))) = false ->
  (forall l1 l2 ago c, l = l1 ++ Set_ ago c :: l2 -> exists u k d b, s_thread (s_run l1 (slp0 n)) = Waits u k (Some d) b /\ (s_now (s_run l1 (slp0 n)) < d)%Z) ->
  came_back (s_run (l ++ [a]) (slp0 n)) t Timeout -> nearly (st_rate (s_set (s_run (l ++ [a]) (slp0 n)))) t (sim_now (s_run (l ++ [a]) (slp0 n)))).
Proof.
  intros H. specialize (H [Sleep 100; Go; Go; Tick 10; Set_ 0 (NewRate sx_slow); Tick 90] Go 5%Z 100%Z).
  assert (~ nearly sx_slow 100 10) as N by (vm_compute; discriminate). apply N. apply H; [..|reflexivity].
  - repeat constructor; try discriminate.
  - repeat constructor; try discriminate. exists sx_slow. reflexivity.
  - reflexivity.
  - intros l1 l2 ago c E. do 4 (destruct l1; [discriminate E|]; injection E as <- E). destruct l1 as [|x l1].
    + vm_compute. repeat eexists.
    + injection E as <- E. destruct l1; [discriminate E|]. injection E as <- E. destruct l1; discriminate E.
Qed.
Print Assumptions c105_late_refuted.
(** With the rate 0, a time set between the copying and the waiting is not noticed: the thread
    sleeps on for ever although the target is long over. *)
Theorem c105_forever_refuted : ~ (forall n l t c, Forall legal l -> s_thread (s_run l (slp0 n)) = Waits t c None false -> (t <= sim_now (s_run l (slp0 n)))%Z ->
  exists l', Forall alone l' /\ is_back (s_thread (s_run (l ++ l') (slp0 n))) = true).
Proof.
  intros H. destruct (H 5%Z sx_lost 100%Z (Copied 0 sx_stop 0)) as (l' & F & B).
  - repeat constructor; try discriminate.
  - reflexivity.
  - vm_compute. discriminate.
  - rewrite run_app in B. rewrite (forever_lemma l' (s_run sx_lost (slp0 5)) 100 (Copied 0 sx_stop 0) F eq_refl) in B. discriminate B.
Qed.
Print Assumptions c105_forever_refuted.
(** Two callers of setRate that get the mutex in the other order than they read the clock make the
    thread believe that the time was set back: it comes back although nobody set the time, even if
    the rate never changes. *)
Theorem c105_two_setters_refuted : ~ (forall l n t, Forall legal l -> Forall (fun a => match a with Set_ _ c => c = NewRate sx_real | _ => True end) l ->
  ~ came_back (s_run l (slp0 n)) t Reset).
Proof. intros H. apply (H sx_race 5%Z 1000%Z); [|repeat constructor|reflexivity]. repeat constructor; try discriminate. Qed.
Print Assumptions c105_two_setters_refuted.
(** And the time goes back. *)
Theorem c105_backwards_refuted : ~ (forall l a n, Forall legal (l ++ [a]) -> Forall (fun b => match b with Set_ _ c => exists r, c = NewRate r | _ => True end) (l ++ [a]) ->
  (sim_now (s_run l (slp0 n)) <= sim_now (s_run (l ++ [a]) (slp0 n)))%Z).
Proof.
  intros H. specialize (H [Tick 100] (Set_ 10 (NewRate sx_stop)) 5%Z). apply H; [| |reflexivity].
  - repeat constructor; try discriminate.
  - repeat constructor. exists sx_stop. reflexivity.
Qed.
Print Assumptions c105_backwards_refuted.
(** A time set back is not noticed by a waiting thread if a later one is set before it runs. *)
Theorem c105_abort_refuted : ~ (forall s t c dl told t1 t2, s_thread s = Waits t c dl told -> (t1 < cy_last c)%Z ->
  is_back (s_thread (s_run [Set_ 0 (NewTime t1); Set_ 0 (NewTime t2); Go; Go] s)) = true).
Proof.
  intros H. specialize (H (s_run [Set_ 0 (NewTime 50); Sleep 100; Go; Go] (slp0 5)) 100%Z (Copied 50 sx_real 50) (Some 55%Z) false 10%Z 60%Z). vm_compute in H. discriminate H; reflexivity.
Qed.
Print Assumptions c105_abort_refuted.
