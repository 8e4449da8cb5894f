(** Vocabulary for the UDP layer. *)
From Verif Require Import Base Sample UdpModel.

Definition no_zero (s : text) : Prop := ~ In 0%Z s.
(** A datagram in which everything fits: its announced name size, name and payload. *)
Definition well_formed (bs : text) (name payload : text) : Prop :=
  exists b0 b1 field, bs = b0 :: b1 :: field ++ payload /\ (b0 + 256 * b1)%Z = Z.of_nat (length field) /\
    no_zero name /\ exists rest, field ++ payload = name ++ 0%Z :: rest.
Definition good (bs : text) : Prop := exists name payload, well_formed bs name payload.

(** Subscribers that exist after a history. *)
Definition subscribers (ops : list uop) : list (nat * text) :=
  fold_left (fun l op => match op with UAdd _ sub topic _ _ => (sub, topic) :: l | URem _ sub => adel sub l | ULeave _ => l end) ops [].
(** A subscriber needs the group a. *)
Definition needed (addr : text -> text) (ops : list uop) (a : text) : bool :=
  existsb (fun st => eqb (addr (snd st)) a) (subscribers ops).
(** Joins succeed. *)
Definition joins_succeed (tr : list uev) : Prop := forall a, ~ In (UJoin a false) tr.
(** Joining and leaving of one group. *)
Definition moves (a : text) (tr : list uev) : list bool :=
  flat_map (fun e => match e with UJoin a' _ => if eqb a' a then [true] else [] | ULeft a' => if eqb a' a then [false] else [] end) tr.
Inductive turns : list bool -> bool -> Prop :=
| turns_nil : turns [] false
| turns_in l : turns l false -> turns (l ++ [true]) true
| turns_out l : turns l true -> turns (l ++ [false]) false.
(** n further subscribers of a topic, created one after the other. *)
Fixpoint subscribe_again (topic : text) (n : nat) (i : nat) : list uop :=
  match n with 0 => [] | S n' => UAdd 1 i topic true true :: ULeave 1 :: subscribe_again topic n' (S i) end.
