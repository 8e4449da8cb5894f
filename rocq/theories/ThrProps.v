(** C72 - C74: callback threads, timers and the measured frequency. *)
From Coq Require Import List Bool ZArith Sorted.
From Verif Require Import Base ThrModel ThrSpec ThrProofs.
Import ListNotations.

(** C72: no trigger is lost: when the worker waits and nothing is left to wake it, a run of the
    callback began after the trigger. *)
Theorem c72_trigger : forall before after s,
  ct_run ct_init (before ++ MTrigger :: after) = Some (Going s) ->
  (forall m, In m (before ++ MTrigger :: after) -> ~ is_stop m) ->
  ct_worker s = WWait -> ct_step s MWake = None ->
  In MWake after.
Proof. exact trigger_lemma. Qed.
Print Assumptions c72_trigger.

Example c72_trigger_case :
  let ms := [MStart; MTimeout; MTrigger; MEnd; MWake; MEnd] in
  exists s, ct_run ct_init ms = Some (Going s) /\ ct_worker s = WWait /\ ct_step s MWake = None.
Proof. eexists. split; [vm_compute; reflexivity|]. split; reflexivity. Qed.

(** C72: triggers may be merged but never multiplied. *)
Theorem c72_merged : forall ms s,
  ct_run ct_init ms = Some (Going s) -> count_wakes ms <= count_triggers ms.
Proof. exact wakes_lemma. Qed.
Print Assumptions c72_merged.

Example c72_merged_case :
  let ms := [MTrigger; MStart; MWake; MTrigger; MTrigger; MEnd; MWake] in
  exists s, ct_run ct_init ms = Some (Going s) /\ count_wakes ms = 2 /\ count_triggers ms = 3.
Proof. eexists. split; [vm_compute; reflexivity|]. split; reflexivity. Qed.

(** C72: once stop has set its flag, no run of the callback begins. *)
Theorem c72_after_stop : forall before t after s,
  ct_run ct_init (before ++ MStop t :: after) = Some s ->
  forall m, In m after -> ~ begins m.
Proof. exact after_stop_lemma. Qed.
Print Assumptions c72_after_stop.

Example c72_after_stop_case :
  ct_run ct_init ([MStart; MTrigger; MWake; MTrigger] ++ MStop 1 :: [MEnd; MQuit; MJoined 1; MTrigger])
  = Some (Going (mkCthread true true false WNone None)).
Proof. vm_compute. reflexivity. Qed.

(** C72: when stop has returned the callback is not running and never runs again. *)
Theorem c72_joined : forall before t after s,
  ct_run ct_init (before ++ MJoined t :: after) = Some (Going s) ->
  ct_worker s <> WCall /\ forall m, In m after -> ~ begins m.
Proof. exact joined_lemma. Qed.
Print Assumptions c72_joined.

Example c72_joined_case :
  exists s, ct_run ct_init ([MStart; MWake; MStop 1; MEnd; MQuit] ++ MJoined 1 :: [MTrigger]) = s
  /\ s = None /\
  exists s', ct_run ct_init ([MStart; MTimeout; MStop 1; MEnd; MQuit] ++ MJoined 1 :: [MTrigger])
             = Some (Going s').
Proof. eexists. split; [vm_compute; reflexivity|]. split; [reflexivity|]. eexists. vm_compute. reflexivity. Qed.

(** C72: a pending stop can always be completed, by at most three moves of the worker and the
    stopping thread. *)
Theorem c72_stop_finishes : forall ms s t,
  ct_run ct_init ms = Some (Going s) -> ct_stopper s = Some t ->
  exists more s',
    ct_run s more = Some (Going s')
    /\ (forall m, In m more -> m = MEnd \/ m = MQuit \/ m = MJoined t)
    /\ ct_join s' = false /\ length more <= 3.
Proof. exact stop_finishes_lemma. Qed.
Print Assumptions c72_stop_finishes.

Example c72_stop_finishes_case :
  exists s, ct_run ct_init [MStart; MTrigger; MWake; MStop 7] = Some (Going s)
            /\ ct_stopper s = Some 7 /\ ct_worker s = WCall.
Proof. eexists. split; [vm_compute; reflexivity|]. split; reflexivity. Qed.

(** C72: started once, stopped by one thread only and not from its own callback, the thread never
    takes the process down. *)
Theorem c72_orderly_partial : forall t ms s,
  ct_run ct_init (MStart :: ms) = Some s -> ~ In MStart ms ->
  (forall u, In (MStop u) ms -> u = t) -> ~ In MSelfStop ms ->
  s <> Terminated.
Proof. exact orderly_lemma. Qed.
Print Assumptions c72_orderly_partial.

Example c72_orderly_case :
  ct_run ct_init (MStart :: [MTrigger; MWake; MStop 1; MEnd; MQuit; MJoined 1; MStop 1])
  = Some (Going (mkCthread true false false WNone None)).
Proof. vm_compute. reflexivity. Qed.

(** C72 refuted: started a second time, stopped from its callback, or stopped by two threads at
    once, it does. *)
Theorem c72_terminates_refuted :
  ct_run ct_init [MStart; MStart] = Some Terminated
  /\ ct_run ct_init [MStart; MTrigger; MWake; MSelfStop] = Some Terminated
  /\ ct_run ct_init [MStart; MStop 1; MStop 2] = Some Terminated.
Proof. vm_compute. repeat split; reflexivity. Qed.
Print Assumptions c72_terminates_refuted.

(** C72 refuted: a thread started again after a stop never runs its callback: the stop flag is
    never reset. *)
Theorem c72_restart_refuted : forall before t after s,
  ct_run ct_init (before ++ [MStop t] ++ MStart :: after) = Some s ->
  forall m, In m after -> ~ begins m.
Proof.
  exact (fun before t after s E m H =>
    after_stop_lemma before t (MStart :: after) s E m (or_intror H)).
Qed.
Print Assumptions c72_restart_refuted.

Example c72_restart_case :
  exists s, ct_run ct_init ([MStart; MStop 1; MQuit; MJoined 1] ++ [MStop 1] ++ MStart :: [MTrigger; MQuit])
            = Some (Going s) /\ ct_worker s = WDone.
Proof. eexists. split; [vm_compute; reflexivity|]. reflexivity. Qed.

(** C73: the timer does not drift: over any number of rounds the time from the start of each
    callback to the end of its sleep adds up to the periods plus the present error. *)
Theorem c73_no_drift_partial : forall period rs err,
  Forall steady rs ->
  elapsed rs = (Z.of_nat (length rs) * period + (snd (rounds period err rs) - err))%Z.
Proof. exact drift_lemma. Qed.
Print Assumptions c73_no_drift_partial.

Example c73_no_drift_case :
  let rs := [mkReadings 0 30 107; mkReadings 107 190 201; mkReadings 201 330 330] in
  Forall steady rs /\ elapsed rs = 330%Z /\ rounds 100 0 rs = ([70; 10; -30]%Z, 30%Z).
Proof.
  cbv zeta. split; [|vm_compute; split; reflexivity].
  repeat constructor; unfold steady; cbn; discriminate.
Qed.

(** C73: if the clock is set back during the callback, the round sleeps for a period and the error is kept. *)
Theorem c73_set_back : forall period err r rs, (rd_end r < rd_start r)%Z ->
  rounds period err (r :: rs) = (period :: fst (rounds period err rs), snd (rounds period err rs)).
Proof. exact set_back_lemma. Qed.
Print Assumptions c73_set_back.

Example c73_set_back_case : rounds 100 7 [mkReadings 50 20 120; mkReadings 120 130 220] = ([100; 83], 7)%Z.
Proof. reflexivity. Qed.

(** C73: as long as callbacks leave time to sleep and sleeps are late by at most delta, the error
    stays between 0 and delta and no negative sleep is asked for. *)
Theorem c73_bounded_partial : forall period delta rs err,
  (0 <= err <= delta)%Z -> in_time period err delta rs ->
  (0 <= snd (rounds period err rs) <= delta)%Z
  /\ Forall (fun q => (0 <= q)%Z) (fst (rounds period err rs)) /\ Forall steady rs.
Proof. exact in_time_lemma. Qed.
Print Assumptions c73_bounded_partial.

Example c73_bounded_case :
  in_time 100 0 9 [mkReadings 0 30 107; mkReadings 107 190 201; mkReadings 201 250 300]
  /\ rounds 100 0 [mkReadings 0 30 107; mkReadings 107 190 201; mkReadings 201 250 300]
     = ([70; 10; 50]%Z, 0%Z).
Proof.
  split; [|vm_compute; reflexivity]. cbn. unfold steady. cbn.
  repeat split; discriminate.
Qed.

(** C73 refuted: after being late by k periods (a long callback, a clock set forward) the next k
    callbacks run one after the other without any pause. *)
Theorem c73_burst_refuted : forall period rs k,
  (0 < period)%Z -> Forall instant rs -> length rs <= k ->
  Forall (fun q => (q <= 0)%Z) (fst (rounds period (Z.of_nat k * period) rs)).
Proof. exact burst_lemma. Qed.
Print Assumptions c73_burst_refuted.

Example c73_burst_case :
  rounds 100 0 [mkReadings 0 400 400; mkReadings 400 400 400; mkReadings 400 400 400;
                mkReadings 400 400 400; mkReadings 400 400 500]
  = ([-300; -200; -100; 0; 100]%Z, 0%Z).
Proof. vm_compute. reflexivity. Qed.

(** C74: for ticks at increasing times every reported frequency is zero, or the number of ticks in
    a stretch of the ticks that really happened, divided by its length. *)
Theorem c74_measured_partial : forall os f,
  StronglySorted Z.lt (tick_times os) ->
  In f (fst (meter_run meter_init os)) ->
  f = FZero \/ measured (tick_times os) f.
Proof. exact measured_lemma. Qed.
Print Assumptions c74_measured_partial.

Example c74_measured_case :
  let os := [OTick 0; OGet 1; OTick 10; OTick 30; OGet 31; OGet 32; OTick 70; OGet 71] in
  StronglySorted Z.lt (tick_times os)
  /\ fst (meter_run meter_init os) = [FZero; FRatio 2 30; FRatio 2 30; FRatio 1 40].
Proof.
  cbv zeta. split; [|vm_compute; reflexivity]. cbn. repeat constructor.
Qed.

(** C74: at a constant rate exactly that rate is reported. *)
Theorem c74_constant : forall os f p,
  (0 < p)%Z ->
  (forall i x y, nth_error (tick_times os) i = Some x ->
                 nth_error (tick_times os) (S i) = Some y -> (y = x + p)%Z) ->
  In f (fst (meter_run meter_init os)) ->
  f = FZero \/ exists n, (0 < n)%Z /\ f = FRatio n (n * p).
Proof. exact constant_lemma. Qed.
Print Assumptions c74_constant.

Example c74_constant_case :
  fst (meter_run meter_init [OTick 5; OTick 25; OGet 26; OTick 45; OTick 65; OTick 85; OGet 86])
  = [FRatio 1 20; FRatio 3 60].
Proof. vm_compute. reflexivity. Qed.

(** C74: when the ticks cease, the value is kept for three periods and is zero afterwards. *)
Theorem c74_silence : forall os t g1 g2 n d,
  fst (meter_get (snd (meter_run meter_init (os ++ [OTick t]))) g1) = FRatio n d ->
  fst (meter_get (snd (meter_run meter_init (os ++ [OTick t; OGet g1]))) g2)
  = if (g2 >? t + Z.quot (3 * d) n)%Z then FZero else FRatio n d.
Proof. exact silence_lemma. Qed.
Print Assumptions c74_silence.

Example c74_silence_case :
  fst (meter_run meter_init [OTick 0; OTick 10; OGet 11; OGet 40; OGet 41; OTick 50; OGet 51])
  = [FRatio 1 10; FRatio 1 10; FZero; FZero].
Proof. vm_compute. reflexivity. Qed.

(** C74: as long as at least one tick falls between two queries, only the first may be zero. *)
Theorem c74_alive : forall os t1 gs t2 g,
  gs = [] \/ (exists g0, gs = [OGet g0]) ->
  fst (meter_get (snd (meter_run meter_init (os ++ OTick t1 :: gs ++ [OTick t2]))) g) <> FZero.
Proof. exact alive_lemma. Qed.
Print Assumptions c74_alive.

Example c74_alive_case :
  fst (meter_run meter_init [OTick 0; OGet 1000; OTick 2000; OGet 9000]) = [FZero; FRatio 1 2000].
Proof. vm_compute. reflexivity. Qed.

(** C74: which measured frequencies fit the registered number of millihertz. *)
Theorem c74_fits_exactly : forall n d,
  (0 < n)%Z -> (0 < d)%Z ->
  (milli (FRatio n d) <> None <-> (n * 1000000000000 < 2147483648 * d)%Z).
Proof. exact milli_lemma. Qed.
Print Assumptions c74_fits_exactly.

Example c74_fits_case : milli (FRatio 3 2000000000) = Some 1500%Z /\ milli (FRatio 1 400) = None.
Proof. vm_compute. split; reflexivity. Qed.

(** C74 refuted: two ticks at the same clock reading give the largest double, and registering it
    is undefined. *)
Theorem c74_same_time_refuted :
  exists os f, fst (meter_run meter_init os) = [f] /\ f = FMax /\ milli f = None
               /\ tick_times os = [7; 7]%Z.
Proof. exists [OTick 7; OTick 7; OGet 8], FMax. vm_compute. repeat split; reflexivity. Qed.
Print Assumptions c74_same_time_refuted.
