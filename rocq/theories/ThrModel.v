(** The callback thread, the timer and the frequency calculator.

    Modelled: ecal/core/src/util/ecal_thread.h 36-144 (CCallbackThread),
    ecal/core/src/time/ecal_timer.cpp 33-139 (CTimerImpl, the branch for systems other than
    Windows), ecal/core/src/util/frequency_calculator.h 33-158 and its use in
    ecal/core/src/readwrite/ecal_writer.cpp 538-542, 951-956.

    Simplified: critical sections of the mutex are single steps; times are integers
    (nanoseconds) and frequencies exact fractions instead of doubles; the callback itself is
    opaque. *)
From Coq Require Import List Bool ZArith.
From Verif Require Import Base.
Import ListNotations.

(** * CCallbackThread *)

(** The worker thread: not there, in wait_for (ecal_thread.h 120-123), inside callback_()
    (137-140), or returned from callbackFunction. *)
Inductive worker := WNone | WWait | WCall | WDone.

Record cthread := mkCthread {
  ct_stop : bool;          (* stopThread_ *)
  ct_trig : bool;          (* triggerThread_ *)
  ct_join : bool;          (* callbackThread_.joinable() *)
  ct_worker : worker;
  ct_stopper : option nat  (* the thread inside callbackThread_.join() *)
}.

Definition ct_init : cthread := mkCthread false false false WNone None.

Inductive ct_move :=
| MStart                 (* start(), 61-65 *)
| MTrigger               (* trigger(), 91-99 *)
| MWake                  (* the wait ends because of a trigger, 130-133 *)
| MTimeout               (* the wait ends with neither flag set *)
| MQuit                  (* the wait ends because of the stop flag, 125-128 *)
| MEnd                   (* the callback returns *)
| MStop (t : nat)        (* stop() up to the join, 71-80 *)
| MJoined (t : nat)      (* join() returns *)
| MSelfStop.             (* the callback calls stop() *)

(** Terminated: assigning to a joinable std::thread calls std::terminate, joining oneself throws,
    joining the same std::thread from two threads is undefined. *)
Inductive ct_state := Going (s : cthread) | Terminated.

Definition ct_step (s : cthread) (m : ct_move) : option ct_state :=
  match m with
  | MStart =>
      if ct_join s then Some Terminated
      else Some (Going (mkCthread (ct_stop s) (ct_trig s) true WWait None))
  | MTrigger =>
      Some (Going (mkCthread (ct_stop s) true (ct_join s) (ct_worker s) (ct_stopper s)))
  | MWake =>
      match ct_worker s with
      | WWait =>
          if negb (ct_stop s) && ct_trig s
          then Some (Going (mkCthread (ct_stop s) false (ct_join s) WCall (ct_stopper s)))
          else None
      | _ => None
      end
  | MTimeout =>
      match ct_worker s with
      | WWait =>
          if ct_stop s || ct_trig s then None
          else Some (Going (mkCthread (ct_stop s) (ct_trig s) (ct_join s) WCall (ct_stopper s)))
      | _ => None
      end
  | MQuit =>
      match ct_worker s with
      | WWait =>
          if ct_stop s
          then Some (Going (mkCthread (ct_stop s) (ct_trig s) (ct_join s) WDone (ct_stopper s)))
          else None
      | _ => None
      end
  | MEnd =>
      match ct_worker s with
      | WCall => Some (Going (mkCthread (ct_stop s) (ct_trig s) (ct_join s) WWait (ct_stopper s)))
      | _ => None
      end
  | MStop t =>
      if ct_join s then
        match ct_stopper s with
        | Some u => if Nat.eqb u t then None else Some Terminated
        | None => Some (Going (mkCthread true (ct_trig s) true (ct_worker s) (Some t)))
        end
      else Some (Going (mkCthread true (ct_trig s) false (ct_worker s) (ct_stopper s)))
  | MJoined t =>
      match ct_worker s, ct_stopper s with
      | WDone, Some u =>
          if Nat.eqb u t then Some (Going (mkCthread (ct_stop s) (ct_trig s) false WNone None))
          else None
      | _, _ => None
      end
  | MSelfStop =>
      match ct_worker s with
      | WCall => Some Terminated
      | _ => None
      end
  end.

Fixpoint ct_run (s : cthread) (ms : list ct_move) : option ct_state :=
  match ms with
  | [] => Some (Going s)
  | m :: r =>
      match ct_step s m with
      | Some (Going s') => ct_run s' r
      | Some Terminated => match r with [] => Some Terminated | _ => None end
      | None => None
      end
  end.

(** * CTimerImpl::Thread, one round of the loop, ecal_timer.cpp 77-125 *)

(** What the clock showed: before the callback, after it, and after the sleep. *)
Record readings := mkReadings { rd_start : Z; rd_end : Z; rd_now : Z }.

(** The time asked of sleep_for and the error remembered for the next round. *)
Definition round (period err : Z) (r : readings) : Z * Z :=
  if (rd_end r <? rd_start r)%Z then (period, err)
  else ((period - err - (rd_end r - rd_start r))%Z,
        ((rd_now r - rd_start r) - (period - err))%Z).

Fixpoint rounds (period err : Z) (rs : list readings) : list Z * Z :=
  match rs with
  | [] => ([], err)
  | r :: q =>
      let '(req, err1) := round period err r in
      let '(reqs, err2) := rounds period err1 q in
      (req :: reqs, err2)
  end.

(** * The frequency calculators *)

(** A frequency: 0.0, the largest double, or n ticks in d nanoseconds. *)
Inductive freq := FZero | FMax | FRatio (n d : Z).

(** calculateFrequency, frequency_calculator.h 34-45 *)
Definition calculate (start last ticks : Z) : freq :=
  if (last - start =? 0)%Z then FMax else FRatio ticks (last - start).

(** FrequencyCalculator, 47-85 *)
Record calc := mkCalc { k_count : Z; k_first : Z; k_last : Z; k_prev : freq }.

Definition calc_tick (c : calc) (now : Z) : calc :=
  mkCalc (k_count c + 1) (k_first c) now (k_prev c).

Definition calc_get (c : calc) : freq * calc :=
  if (k_count c =? 0)%Z then (k_prev c, c)
  else let f := calculate (k_first c) (k_last c) (k_count c) in
       (f, mkCalc 0 (k_last c) (k_last c) f).

(** ResettableFrequencyCalculator, 89-152; the reset factor is 3 in reader and writer. *)
Record meter := mkMeter { me_calc : option calc; me_last : Z; me_flag : bool }.

Definition meter_init : meter := mkMeter None 0 false.

Definition meter_tick (m : meter) (now : Z) : meter :=
  mkMeter (Some (match me_calc m with
                 | None => mkCalc 0 now now FZero
                 | Some c => calc_tick c now
                 end)) now true.

(** duration_cast truncates towards zero; 1 / DBL_MAX seconds are zero nanoseconds. *)
Definition timeout_of (f : freq) : Z :=
  match f with
  | FRatio n d => Z.quot (3 * d) n
  | _ => 0
  end.

Definition meter_get (m : meter) (now : Z) : freq * meter :=
  match me_calc m with
  | None => (FZero, m)
  | Some c =>
      let '(f, c') := calc_get c in
      let m' := mkMeter (Some c') (me_last m) (me_flag m) in
      match f with
      | FZero => (FZero, m')
      | _ =>
          if me_flag m then (f, mkMeter (Some c') (me_last m) false)
          else if (now >? me_last m + timeout_of f)%Z
               then (FZero, mkMeter None (me_last m) (me_flag m))
               else (f, m')
      end
  end.

(** The registered value, ecal_writer.cpp 955: static_cast<int32_t>(frequency * 1000).  None: the
    value does not fit, which is undefined. *)
Definition milli (f : freq) : option Z :=
  match f with
  | FZero => Some 0%Z
  | FMax => None
  | FRatio n d =>
      let v := Z.quot (n * 1000000000000) d in
      if (v <? 2147483648)%Z && (-2147483649 <? v)%Z then Some v else None
  end.

Inductive meter_op := OTick (t : Z) | OGet (t : Z).

Definition meter_step (m : meter) (o : meter_op) : option freq * meter :=
  match o with
  | OTick t => (None, meter_tick m t)
  | OGet t => let '(f, m') := meter_get m t in (Some f, m')
  end.

Fixpoint meter_run (m : meter) (os : list meter_op) : list freq * meter :=
  match os with
  | [] => ([], m)
  | o :: r =>
      let '(f, m1) := meter_step m o in
      let '(fs, m2) := meter_run m1 r in
      (match f with Some x => x :: fs | None => fs end, m2)
  end.
