(** Vocabulary for the statements about events. *)
From Verif Require Import Base EvtModel.

(** The event was set since the last successful wait, from the calls and their results. *)
Definition pending_step (a : bool) (e : eop * eres) : bool :=
  match e with
  | (VSet _, VDone) => true
  | (_, VGot true) => false
  | (VClose _, VClosed true) => false
  | _ => a
  end.
Definition pending (h : list (eop * eres)) : bool := fold_left pending_step h false.

(** Number of sets and of successful waits. *)
Definition is_set (e : eop * eres) : bool := match e with (VSet _, VDone) => true | _ => false end.
Definition is_got (e : eop * eres) : bool := match e with (_, VGot true) => true | _ => false end.
Definition count {A} (f : A -> bool) (l : list A) : nat := length (filter f l).

Inductive erule :=
| KCreate   (* nobody opens the event while somebody creates it *)
| KOwner.   (* the handles with ownership are closed last *)
Definition ecreating (p : ephase) : bool := match p with EMissing _ | ECreating _ _ _ => true | _ => false end.
Definition erule_ok (r : erule) (s : esys) (op : eop) : Prop :=
  match r, op with
  | KCreate, VOpen _ _ => forall c, ecreating (ephase_of s c) = false
  | KOwner, VClose c =>
      (exists id w, ephase_of s c = EOpened true id w) -> forall x, x <> c -> ephase_of s x = EAbsent
  | _, _ => True
  end.
Fixpoint erun_ok (R : erule -> bool) (ops : list eop) (s : esys) : Prop :=
  match ops with
  | [] => True
  | op :: ops' =>
      (forall r, R r = true -> erule_ok r s op) /\
      match e_step op s with Some (s', x) => erun_ok R ops' s' | None => True end
  end.
Definition all_rules (r : erule) : bool := true.
Definition but_create (r : erule) : bool := match r with KCreate => false | KOwner => true end.
Definition but_owner (r : erule) : bool := match r with KCreate => true | KOwner => false end.

(** Unnamed events. *)
Definition u_is_set (e : uop * ures) : bool := match e with (USet, _) => true | _ => false end.
Definition u_is_got (e : uop * ures) : bool := match snd e with UGot true => true | _ => false end.
Definition outstanding (h : list (uop * ures)) : Z := (Z.of_nat (count u_is_set h) - Z.of_nat (count u_is_got h))%Z.
(** At no time more than 2^32-1 sets are outstanding. *)
Fixpoint urun_ok (n : Z) (ops : list uop) (s : usys) : Prop :=
  match ops with
  | [] => True
  | op :: ops' =>
      let (s', r) := u_step op s in
      let n' := (n + match op with USet => 1 | _ => 0 end - match r with UGot true => 1 | _ => 0 end)%Z in
      (n' < 2 ^ 32)%Z /\ urun_ok n' ops' s'
  end.
