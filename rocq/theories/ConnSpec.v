(** Vocabulary for the connection events. *)
From Verif Require Import Base ExpMapModel ConnModel.

Section ConnSpec.
  Context {K V : Type} `{EqDec K}.

  (** The connected (true) and disconnected (false) events in order. *)
  Definition signals (evs : list (cev K V)) : list bool :=
    flat_map (fun e => match e with EvConnected _ _ => [true] | EvDisconnected => [false] | EvUpdate _ _ => [] end) evs.
  (** Connected, disconnected, connected, ... *)
  Definition alternating (l : list bool) : Prop := forall i b, nth_error l i = Some b -> b = Nat.even i.
  Definition updates (evs : list (cev K V)) : list (K * V) :=
    flat_map (fun e => match e with EvUpdate k v => [(k, v)] | _ => [] end) evs.
  Definition announced (os : list (wop K V)) : list (K * V) :=
    flat_map (fun o => match o with WApply _ k v => [(k, v)] | _ => [] end) os.

  (** A counterpart is registered at time [now] after the calls [os]: its last
      announcement is at most the timeout old and it was not removed since. *)
  Definition registered (timeout now : Z) (os : list (wop K V)) (k : K) : Prop :=
    exists h1 t v h2, os = h1 ++ WApply t k v :: h2 /\ (now - timeout <= t)%Z /\
      (forall t' v', ~ In (WApply t' k v') h2) /\ ~ In (WRemove k) h2.

  (** The clock read by the calls never goes back. *)
  Fixpoint times_from (t : Z) (os : list (wop K V)) : Prop :=
    match os with
    | [] => True
    | WApply now _ _ :: os' | WCheck now :: os' => (t <= now)%Z /\ times_from now os'
    | WRemove _ :: os' => times_from t os'
    end.
  Definition idle (s : conn K V) : Prop := cn_apply s = AIdle /\ cn_check s = KIdle.
End ConnSpec.
