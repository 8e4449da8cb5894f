(** Vocabulary for sleeping in simulation time. *)
From Verif Require Import Base SlpModel.

(** Rates that do not run backwards. *)
Definition forward (r : rate) : Prop := (0 <= r_num r /\ 0 < r_den r)%Z.
Definition change_ok (c : change) : Prop := match c with NewRate r | NewBoth _ r => forward r | NewTime _ => True end.
(** The clock does not go back, rates neither, and clocks are read before they are used. *)
Definition legal (a : act) : Prop :=
  match a with Tick d => (0 <= d)%Z | Set_ ago c => (0 <= ago)%Z /\ change_ok c | SleepFor ago _ => (0 <= ago)%Z | _ => True end.
(** The simulation time now. *)
Definition sim_now (s : slp) : Z := sim_at (s_set s) (s_now s).
(** Less than this much simulation time is missing: what passes in one nanosecond, and two for the
    cutting. *)
Definition nearly (r : rate) (target sim : Z) : Prop := ((target - sim) * r_den r < r_num r + 2 * r_den r)%Z.

Definition is_back (th : sleeper) : bool := match th with Back _ _ => true | _ => false end.
Definition came_back (s : slp) (target : Z) (h : how) : Prop := s_thread s = Back target h.
(** Nobody sets anything while the thread is about to wait, and a thread that was notified wakes up
    before its own time is over. *)
Definition prompt (a : act) (s : slp) : Prop :=
  match a, s_thread s with
  | Set_ _ _, Gap _ _ => False
  | (Go | Spurious), Waits _ _ dl true => due (s_now s) dl = false
  | _, _ => True
  end.
Fixpoint careful (l : list act) (s : slp) : Prop := match l with [] => True | a :: l' => prompt a s /\ careful l' (s_step a s) end.
(** Only the rate is set, by callers that have read the clock in the same moment. *)
Definition rates_only (a : act) : Prop := match a with Set_ ago c => ago = 0%Z /\ (exists r, c = NewRate r) | _ => True end.
(** Nobody sets anything, and the thread does as it is told. *)
Definition alone (a : act) : Prop := match a with Tick _ | Go => True | _ => False end.
(** The thread is not given the processor. *)
Definition elsewhere (a : act) : Prop := match a with Tick _ | Set_ _ _ => True | _ => False end.

(** ** Examples *)
Definition sx_real : rate := Rate 1 1.
Definition sx_slow : rate := Rate 1 1000.
Definition sx_half : rate := Rate 1 2.
Definition sx_stop : rate := Rate 0 1.
Definition sx_sleep : list act := [Sleep 100; Go; Go; Tick 100; Go].
Definition sx_gap : list act := [Sleep 100; Go; Set_ 0 (NewRate sx_slow); Go; Tick 100; Go].
Definition sx_late : list act := [Sleep 100; Go; Go; Tick 10; Set_ 0 (NewRate sx_slow); Tick 90; Go].
Definition sx_lost : list act := [Set_ 0 (NewRate sx_stop); Sleep 100; Go; Set_ 0 (NewTime 1000); Go].
Definition sx_race : list act := [Sleep 1000; Go; Go; Tick 110; Set_ 0 (NewRate sx_real); Go; Go; Go; Set_ 10 (NewRate sx_real); Go; Go].
Definition sx_again : list act := [Set_ 0 (NewTime 50); Sleep 100; Go; Go; Set_ 0 (NewTime 10); Set_ 0 (NewTime 60); Go; Go].
Definition sx_change : list act := [Sleep 100; Go; Go; Tick 40; Set_ 0 (NewRate sx_half); Go; Go; Go; Tick 120; Go].
