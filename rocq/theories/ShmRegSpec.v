(** Specification vocabulary for registration over shared memory. *)
From Verif Require Import Base ShmRegModel.

(** The newest event of every id, newest first ([evs] is newest first). *)
Fixpoint newest (seen : list Z) (evs : list (Z * evtype)) : list (Z * evtype) :=
  match evs with
  | [] => []
  | (id, ty) :: evs' => if existsb (Z.eqb id) seen then newest seen evs' else (id, ty) :: newest (id :: seen) evs'
  end.

Section Spec.
  Context {S : Type}.

  (** A payload file can be read: already opened, or not yet known and still there. *)
  Definition openable (linked : list Z) (opened : list (Z * bool)) (id : Z) : bool :=
    match aget id opened with Some b => b | None => existsb (Z.eqb id) linked end.
  Definition content (store : list (Z * list S)) (id : Z) : list S :=
    match aget id store with Some m => m | None => [] end.
  Definition readable (lock : Z -> bool) (linked : list Z) (opened : list (Z * bool)) (e : Z * evtype) : bool :=
    match snd e with EvUpdated => openable linked opened (fst e) && lock (fst e) | _ => false end.

  (** A schedule in which the receiver polls right after every action of a sender. *)
  Inductive action := ABind (w : nat) (id : Z) | AWrite (w : nat) (m : list S) (nid : Z) | AUnbind (w : nat).
  Definition polled (a : action) : list (ssop S) :=
    (match a with ABind w id => SBind w id | AWrite w m nid => SWrite w m nid true | AUnbind w => SUnbind w end)
      :: [SSnapshot; SProcess (fun _ => true)].
  Definition action_id (a : action) : list Z := match a with ABind _ id => [id] | AWrite _ _ nid => [nid] | AUnbind _ => [] end.

  (** What the senders sent: the lists written by writers that are bound. *)
  Fixpoint sent_lists (bound : list nat) (l : list action) : list S :=
    match l with
    | [] => []
    | ABind w _ :: l' => sent_lists (w :: bound) l'
    | AWrite w m _ :: l' => (if existsb (Nat.eqb w) bound then m else []) ++ sent_lists bound l'
    | AUnbind w :: l' => sent_lists (filter (fun x => negb (Nat.eqb x w)) bound) l'
    end.
End Spec.
Arguments action : clear implicits.
