(** What callers of the thread, the timer and the frequency calculator expect. *)
From Coq Require Import List Bool ZArith Sorted.
From Verif Require Import Base ThrModel.
Import ListNotations.

(** Moves with which a run of the callback begins. *)
Definition begins (m : ct_move) : Prop := m = MWake \/ m = MTimeout.

Definition is_stop (m : ct_move) : Prop := (exists t, m = MStop t) \/ m = MSelfStop.

Fixpoint count_triggers (ms : list ct_move) : nat :=
  match ms with
  | [] => 0
  | MTrigger :: r => S (count_triggers r)
  | _ :: r => count_triggers r
  end.

Fixpoint count_wakes (ms : list ct_move) : nat :=
  match ms with
  | [] => 0
  | MWake :: r => S (count_wakes r)
  | _ :: r => count_wakes r
  end.

(** Readings of a clock that does not go back during the callback. *)
Definition steady (r : readings) : Prop := (rd_start r <= rd_end r)%Z.

Definition elapsed (rs : list readings) : Z :=
  fold_right (fun r n => (rd_now r - rd_start r + n)%Z) 0%Z rs.

(** Rounds whose callback left something to sleep, and whose sleep was at most late by delta. *)
Fixpoint in_time (period err delta : Z) (rs : list readings) : Prop :=
  match rs with
  | [] => True
  | r :: q =>
      let left := (period - err - (rd_end r - rd_start r))%Z in
      steady r /\ (0 <= left)%Z
      /\ (rd_end r + left <= rd_now r <= rd_end r + left + delta)%Z
      /\ in_time period ((rd_now r - rd_start r) - (period - err))%Z delta q
  end.

(** A callback that takes no time, on a clock that does not move either. *)
Definition instant (r : readings) : Prop := rd_end r = rd_start r /\ rd_now r = rd_start r.

Fixpoint tick_times (os : list meter_op) : list Z :=
  match os with
  | [] => []
  | OTick t :: r => t :: tick_times r
  | OGet _ :: r => tick_times r
  end.

(** n ticks in d nanoseconds, counted over some stretch of the ticks. *)
Definition measured (ts : list Z) (f : freq) : Prop :=
  exists before x mid y after,
    ts = before ++ x :: mid ++ y :: after
    /\ f = FRatio (Z.of_nat (length mid) + 1) (y - x).
