(** Sleeping in simulation time: CDynamicSleeper, contrib/ecaltime/include/dynamic_sleeper.h 30-185.

    The simulation time runs at a rate relative to the real (steady) clock.  One thread sleeps, any
    number of others set the rate or the time; sleeping threads do not influence each other.
    Simplified: rates are fractions and products are exact before they are cut to whole nanoseconds
    (in the code they are doubles); the 64 bit integers do not overflow. *)
From Verif Require Import Base.

(** A rate: numerator and denominator, the latter positive. *)
Record rate := Rate { r_num : Z; r_den : Z }.
(** rate, lastSimTime, lastSimTimeLocalTimestamp, 181-184. *)
Record setting := Setting { st_rate : rate; st_last : Z; st_stamp : Z }.
(** The product cut towards zero, 59, 80, 103, 122, 172. *)
Definition scaled (r : rate) (d : Z) : Z := Z.quot (d * r_num r) (r_den r).
(** The simulation time at a real time. *)
Definition sim_at (st : setting) (real : Z) : Z := scaled (st_rate st) (real - st_stamp st) + st_last st.

(** setRate, setTime, setTimeAndRate, 118-163; [at_] is when they read the clock. *)
Inductive change := NewRate (r : rate) | NewTime (t : Z) | NewBoth (t : Z) (r : rate).
Definition apply_change (c : change) (at_ : Z) (st : setting) : setting :=
  match c with
  | NewRate r => Setting r (st_last st + scaled (st_rate st) (at_ - st_stamp st)) at_
  | NewTime t => Setting (st_rate st) t at_
  | NewBoth t r => Setting r t at_
  end.

(** What the sleeping thread has copied: loopStartSimTime, originalRate, originalLastSimtime. *)
Record copied := Copied { cy_sim : Z; cy_rate : rate; cy_last : Z }.
Definition copy_at (st : setting) (real : Z) : copied := Copied (sim_at st real) (st_rate st) (st_last st).
(** How sleepUntil came back: the loop's condition 85, the timeout 89, the time set back 99. *)
Inductive how := Over | Timeout | Reset.
Inductive sleeper :=
| Awake
| Reads (target real : Z)                   (* has read the clock 73, does not have the mutex yet 78 *)
| Gap (target : Z) (c : copied)             (* has released the mutex 83 or 106, does not wait yet *)
| Waits (target : Z) (c : copied) (dl : option Z) (told : bool)   (* 89, 94; [told]: notified *)
| Woken (target : Z) (c : copied)           (* 97 *)
| Back (target : Z) (h : how).
Record slp := Slp { s_now : Z; s_set : setting; s_thread : sleeper }.

(** The constructor, 39-44. *)
Definition slp0 (now : Z) : slp := Slp now (Setting (Rate 1 1) 0 now) Awake.
(** The loop's condition, 85. *)
Definition enter (target : Z) (c : copied) : sleeper := if (cy_sim c <? target)%Z then Gap target c else Back target Over.
(** realTimeToSleep, 87-88: none for a rate of 0 or below, 93-95. *)
Definition deadline (now target : Z) (c : copied) : option Z :=
  if (0 <? r_num (cy_rate c))%Z then Some (now + Z.quot ((target - cy_sim c) * r_den (cy_rate c)) (r_num (cy_rate c)))%Z else None.
(** wait_for and wait return; a timeout is reported whenever the time has come. *)
Definition wake (now target : Z) (c : copied) (dl : option Z) : sleeper :=
  match dl with Some d => if (d <=? now)%Z then Back target Timeout else Woken target c | None => Woken target c end.
Definition due (now : Z) (dl : option Z) : bool := match dl with Some d => (d <=? now)%Z | None => false end.
(** A step of the sleeping thread. *)
Definition go (s : slp) : slp :=
  let th := match s_thread s with
    | Reads target real => enter target (copy_at (s_set s) real)
    | Gap target c => Waits target c (deadline (s_now s) target c) false
    | Waits target c dl told => if (told || due (s_now s) dl)%bool then wake (s_now s) target c dl else Waits target c dl told
    | Woken target c => if (st_last (s_set s) <? cy_last c)%Z then Back target Reset else enter target (copy_at (s_set s) (s_now s))
    | other => other
    end in Slp (s_now s) (s_set s) th.
(** notify_all reaches who waits. *)
Definition notify (th : sleeper) : sleeper := match th with Waits target c dl _ => Waits target c dl true | other => other end.
Inductive act :=
| Tick (d : Z)                      (* the clock goes on *)
| Set_ (ago : Z) (c : change)       (* a setter that read the clock [ago] earlier gets the mutex *)
| Sleep (target : Z)                (* sleepUntil is called *)
| SleepFor (real : Z) (d : Z)       (* sleepFor, 54-62: it read the clock [real] earlier, now it has the mutex *)
| Go
| Spurious.                         (* wait returns for no reason *)
Definition s_step (a : act) (s : slp) : slp :=
  match a with
  | Tick d => Slp (s_now s + d) (s_set s) (s_thread s)
  | Set_ ago c => Slp (s_now s) (apply_change c (s_now s - ago) (s_set s)) (notify (s_thread s))
  | Sleep target => match s_thread s with Awake | Back _ _ => Slp (s_now s) (s_set s) (Reads target (s_now s)) | _ => s end
  | SleepFor ago d => match s_thread s with Awake | Back _ _ => Slp (s_now s) (s_set s) (Reads (sim_at (s_set s) (s_now s - ago) + d) (s_now s)) | _ => s end
  | Go => go s
  | Spurious => match s_thread s with Waits target c dl _ => Slp (s_now s) (s_set s) (wake (s_now s) target c dl) | _ => s end
  end.
Definition s_run (l : list act) (s : slp) : slp := fold_left (fun x a => s_step a x) l s.
