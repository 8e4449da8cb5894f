(** What a protobuf server answers, told from the history of its object. *)
From Verif Require Import Base Sample MsgModel.

(** The object still exists. *)
Definition ps_alive (o : pvop) : bool := match o with PDie | PGone => false | _ => true end.
(** The base is announced: a creation came after the last Destroy of the base. *)
Definition ps_open (os : list pvop) : bool :=
  fold_left (fun b o => match o with PCreate (Some _) _ => true | PBaseDestroy => false | _ => b end) os false.
(** The service in charge: that of the last creation, unless Destroy came later. *)
Definition ps_current (os : list pvop) : option (nat * nat) :=
  fold_left (fun c o => match o with PCreate (Some sv) _ => Some sv | PDestroy => None | _ => c end) os None.
(** The types created, latest first; and those since the last Destroy of the base. *)
Definition ps_types (os : list pvop) : list nat :=
  fold_left (fun l o => match o with PCreate (Some sv) _ => fst sv :: l | _ => l end) os [].
Definition ps_since (os : list pvop) : list nat :=
  fold_left (fun l o => match o with PCreate (Some sv) _ => fst sv :: l | PBaseDestroy => [] | _ => l end) os [].
Section Proto.
  Variable methods_of : nat -> list text.
  Variable parse : nat -> text -> list Z -> option (list Z).
  Variable invoke : nat * nat -> text -> list Z -> list Z.
  Definition ps_has (m : text) (ty : nat) : bool := existsb (eqb m) (methods_of ty).
  (** The server below knows the method. *)
  Definition ps_bound (os : list pvop) (m : text) : bool := existsb (ps_has m) (ps_since os).
  Definition ps_answer (os : list pvop) (m : text) (q : list Z) : pvout :=
    if negb (ps_open os) then PClosed
    else if negb (ps_bound os m) then PNoMethod
    else match ps_current os, find (ps_has m) (ps_types os) with
         | Some sv, Some ty =>
             if Nat.eqb ty (fst sv) then match parse ty m q with Some x => PAnswer 0 (invoke sv m x) | None => PAnswer (-1) [] end else PUb
         | _, _ => PAnswer (-1) []
         end.
End Proto.
(** One type only. *)
Definition ps_one (ty : nat) (os : list pvop) : Prop := forall o, In o os -> match o with PCreate (Some sv) _ => fst sv = ty | _ => True end.
Definition ps_demo : list pvop := [PCreate (Some (0, 3)) []; PBaseDestroy; PCreate (Some (1, 4)) []; PDestroy; PCreate (Some (1, 5)) []].
