(** What is expected of the managers of the services. *)
From Coq Require Import List Bool Arith.
From Verif Require Import Base ManModel.
Import ListNotations.

(** Session i lives at address a: somebody holds a shared_ptr to it. *)
Definition alive_at (s : manager) (a : addr) (i : nat) (runs : bool) : Prop :=
  aget a (mn_heap s) = Some (mkMobj i (PAlive runs)).

Definition dying_at (s : manager) (a : addr) (i : nat) : Prop :=
  aget a (mn_heap s) = Some (mkMobj i PDying).

(** Thread t has gone through all of its copy: its stop() is about to return. *)
Definition stop_done (s : manager) (t : nat) : Prop := aget t (mn_copies s) = Some [].

Definition at_pos (s : service_manager) (t : nat) (p : tpos) : Prop :=
  exists io, aget t (sw_threads s) = Some (io, p).

(** An io thread that can run until it has no more work. *)
Definition unhindered (s : service_manager) : Prop :=
  forall t p, aget t (sw_threads s) = Some (true, p) -> p = TFree \/ p = TExited.

(** Requests that arrived and are not finished. *)
Definition unfinished (s : pool) : nat := pl_next s - length (pl_done s).
