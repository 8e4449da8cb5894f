(** Vocabulary for the statements about named mutexes. *)
From Verif Require Import Base MtxModel.

(** Who holds the lock and whether the last holder died holding it, from the calls and
    their results alone. *)
Definition others (c : nat) (l : list nat) : list nat := filter (fun x => negb (Nat.eqb x c)) l.
Definition hist_step (a : list nat * bool) (e : xop * xres) : list nat * bool :=
  let (H, d) := a in
  match e with
  | (XLock c _, XGot true _) | (XWake c, XGot true _) | (XTimeout c, XGot true _) => (c :: others c H, false)
  | (XUnlock c, XDone) => (others c H, d)
  | (XClose c, XClosed u) => (others c H, if u then false else d)
  | (XDie c, XDone) => (others c H, d || existsb (Nat.eqb c) H)
  | _ => a
  end.
Definition hist (h : list (xop * xres)) : list nat * bool := fold_left hist_step h ([], false).
Definition holders (h : list (xop * xres)) : list nat := fst (hist h).
Definition died_holding (h : list (xop * xres)) : bool := snd (hist h).

(** Rules for the users of a mutex. *)
Inductive rule :=
| RCreate        (* nobody opens the mutex while somebody creates it *)
| RUnlock        (* only the holder unlocks *)
| RClose         (* a mutex object is not destroyed while another one holds the lock *)
| ROwner         (* the object that created the mutex outlives the others *)
| RDieHolding    (* nobody dies holding the lock *)
| RDieCreating.  (* nobody dies creating the mutex *)

Definition creating (p : phase) : bool := match p with Missing | Creating _ _ => true | _ => false end.
Definition rule_ok (r : rule) (h : list (xop * xres)) (s : msys) (op : xop) : Prop :=
  match r, op with
  | RCreate, XOpen _ => forall c, creating (phase_of s c) = false
  | RUnlock, XUnlock c => In c (holders h)
  | RClose, XClose c => forall x, In x (holders h) -> x = c
  | ROwner, XClose c =>
      (exists id w, phase_of s c = Opened id true w) ->
      forall x, x <> c -> phase_of s x = Absent \/ phase_of s x = NoHandle
  | RDieHolding, XDie c => ~ In c (holders h)
  | RDieCreating, XDie c => creating (phase_of s c) = false
  | _, _ => True
  end.

Section Runs.
  Variable robust : bool.
  Variable R : rule -> bool.   (* the rules that are kept *)
  Fixpoint run_ok (h : list (xop * xres)) (ops : list xop) (s : msys) : Prop :=
    match ops with
    | [] => True
    | op :: ops' =>
        (forall r, R r = true -> rule_ok r h s op) /\
        match x_step robust op s with
        | Some (s', x) => run_ok (h ++ [(op, x)]) ops' s'
        | None => True
        end
    end.
End Runs.

(** The rules needed: a robust mutex takes care of foreign unlocks and of dying holders. *)
Definition needed (robust : bool) (r : rule) : bool :=
  match r with
  | RCreate | ROwner | RDieCreating => true
  | RUnlock | RClose | RDieHolding => negb robust
  end.
Definition except (r0 : rule) (robust : bool) (r : rule) : bool :=
  match r0, r with
  | RCreate, RCreate | RUnlock, RUnlock | RClose, RClose | ROwner, ROwner
  | RDieHolding, RDieHolding | RDieCreating, RDieCreating => false
  | _, _ => needed robust r
  end.
