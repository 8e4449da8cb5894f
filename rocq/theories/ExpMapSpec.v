(** Specification vocabulary for the expiring listing: what a user sees is a
    partial function from keys to the value last announced and the time of that
    announcement. *)
From Verif Require Import Base ExpMapModel.

Section Spec.
  Context {K V : Type} `{EqDec K}.

  (** What is listed: key -> (value, time of the last announcement). *)
  Definition listing := K -> option (V * Z).
  Record aspec := ASpec { a_list : listing; a_timeout : Z }.

  Definition upd (k : K) (x : option (V * Z)) (a : listing) : listing :=
    fun k' => if eqb k' k then x else a k'.

  (** Meaning of each operation. *)
  Definition spec_step (dflt : V) (o : emop K V) (a : aspec) : aspec :=
    match o with
    | OIndex now k f =>
        ASpec (upd k (Some (f (match a_list a k with Some (v, _) => v | None => dflt end), now))
                   (a_list a)) (a_timeout a)
    | OInsert now k v =>
        ASpec (match a_list a k with
               | Some (w, _) => upd k (Some (w, now)) (a_list a)
               | None => upd k (Some (v, now)) (a_list a)
               end) (a_timeout a)
    | OErase k => ASpec (upd k None (a_list a)) (a_timeout a)
    | OExpire now =>
        ASpec (fun k => match a_list a k with
                        | Some (v, t) => if Z.ltb t (now - a_timeout a) then None else Some (v, t)
                        | None => None
                        end) (a_timeout a)
    | OClear => ASpec (fun _ => None) (a_timeout a)
    | OFind _ => a
    | OSetExpiration t => ASpec (a_list a) t
    end.

  Definition spec_run (dflt : V) (os : list (emop K V)) (a : aspec) : aspec :=
    fold_left (fun a o => spec_step dflt o a) os a.

  Definition spec_new (timeout : Z) : aspec := ASpec (fun _ => None) timeout.

  (** The time at which an operation reads the clock. *)
  Definition op_time (o : emop K V) : option Z :=
    match o with
    | OIndex now _ _ | OInsert now _ _ | OExpire now => Some now
    | _ => None
    end.

  (** The clock never goes back along the history, starting from [t]. *)
  Fixpoint clock_from (t : Z) (os : list (emop K V)) : Prop :=
    match os with
    | [] => True
    | o :: os' =>
        match op_time o with
        | Some now => (t <= now)%Z /\ clock_from now os'
        | None => clock_from t os'
        end
    end.

  (** Histories that never call the explicit insert (no caller in eCAL does). *)
  Definition no_insert (os : list (emop K V)) : Prop :=
    forall now k v, ~ In (OInsert now k v) os.

  (** Operations that end or replace the announcement of key [k]. *)
  Definition touches (k : K) (o : emop K V) : bool :=
    match o with
    | OIndex _ k' _ | OInsert _ k' _ | OErase k' => eqb k k'
    | OClear => true
    | _ => false
    end.
End Spec.

(** Histories in which the explicit insert is only used for keys that are not
    listed at that moment. *)
Fixpoint inserts_fresh {K V} `{EqDec K} (dflt : V) (os : list (emop K V)) (a : @aspec K V) : Prop :=
  match os with
  | [] => True
  | o :: os' =>
      (match o with OInsert _ k _ => a_list a k = None | _ => True end) /\
      inserts_fresh dflt os' (spec_step dflt o a)
  end.
