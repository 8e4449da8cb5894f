(** Vocabulary for the statements about client sessions. *)
From Verif Require Import Base CliModel.

Definition accepts (tr : list cev) : list nat := flat_map (fun e => match e with EvAccept c => [c] | _ => [] end) tr.
Definition sends (tr : list cev) : list nat := flat_map (fun e => match e with EvSend c => [c] | _ => [] end) tr.
Definition answers (tr : list cev) : list nat := flat_map (fun e => match e with EvAnswer c _ => [c] | _ => [] end) tr.
Definition oks (tr : list cev) : list nat := flat_map (fun e => match e with EvAnswer c AOk => [c] | _ => [] end) tr.
(** Connection events seen by the user. *)
Definition conn_events (tr : list cev) : list bool :=
  flat_map (fun e => match e with EvConnected => [true] | EvDisconnected => [false] | _ => [] end) tr.

(** [a] is [b] with elements left out. *)
Inductive subseq {A} : list A -> list A -> Prop :=
| sub_nil : subseq [] []
| sub_skip x a b : subseq a b -> subseq a (x :: b)
| sub_keep x a b : subseq a b -> subseq (x :: a) (x :: b).

(** A request is sent only when the one before has been answered; [cur] is the request in flight. *)
Fixpoint one_at_a_time (cur : option nat) (tr : list cev) : Prop :=
  match tr with
  | [] => True
  | EvSend c :: tr' => cur = None /\ one_at_a_time (Some c) tr'
  | EvAnswer c a :: tr' =>
      match cur with
      | Some d => if Nat.eqb c d then one_at_a_time None tr' else a <> AOk /\ one_at_a_time cur tr'
      | None => a <> AOk /\ one_at_a_time None tr'
      end
  | _ :: tr' => one_at_a_time cur tr'
  end.

Definition internal (op : cop) : bool := match op with CCall | CStop => false | _ => true end.
Definition is_call (op : cop) : bool := match op with CCall => true | _ => false end.
(** Nothing is left to do but to wait for a loss of the idle connection. *)
Definition settled (s : cli) : Prop :=
  forall op, internal op = true -> c_step op s <> None -> exists k ok, op = CPeeked k ok.
(** The connection is being looked up or made. *)
Definition connecting (p : phase) : bool := match p with PResolve _ | PConnecting _ => true | _ => false end.
