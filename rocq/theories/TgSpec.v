(** What is expected of the time synchronisation. *)
From Coq Require Import List Bool ZArith.
From Verif Require Import Base TgModel.
Import ListNotations.

(** Every module that can be found has all the functions. *)
Definition well_made (files : nat -> option tmodule) : Prop :=
  forall n m, files n = Some m -> forall y, In y (tm_symbols m).

(** The last start that took effect. *)
Fixpoint started (os : list tg_op) (cur : option (sync_mode * nat)) : option (sync_mode * nat) :=
  match os with
  | [] => cur
  | XStart mode name :: r => started r (match cur with None => Some (mode, name) | _ => cur end)
  | XStop :: r => started r None
  | _ :: r => started r cur
  end.

(** Each mode is always used with the same module name. *)
Definition one_name (mode : sync_mode) (name : nat) (os : list tg_op) : Prop :=
  forall n, In (XStart mode n) os -> n = name.

(** Calls of initialize that are not followed by finalize, for one of the interfaces. *)
Fixpoint open_inits (replay : bool) (es : list tg_event) : Z :=
  match es with
  | [] => 0
  | VInit b :: r => (if Bool.eqb b replay then 1 else 0) + open_inits replay r
  | VFinal b :: r => (if Bool.eqb b replay then -1 else 0) + open_inits replay r
  end%Z.
