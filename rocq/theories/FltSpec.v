(** The vocabulary of the theorems about the message filters. *)
From Verif Require Import Base Sample DscModel StrModel FltModel.

(** A path in a message: field names, each with or without an index; the index is a number or a star. *)
Definition fstep := (text * option text)%type.
Definition path := list fstep.
Definition show_step (s : fstep) : text :=
  match snd s with None => fst s | Some i => fst s ++ [91%Z] ++ i ++ [93%Z] end.
Fixpoint show (p : path) : text :=
  match p with [] => [] | [s] => show_step s | s :: p' => show_step s ++ [46%Z] ++ show p' end.

Definition number (i : text) : Prop := i <> [] /\ Forall (fun c => (48 <= c <= 57)%Z) i.
Definition index (i : text) : Prop := i = [42%Z] \/ number i.
(** A field name: not empty, without dots, opening brackets and stars. *)
Definition field_name (n : text) : Prop := n <> [] /\ ~ In 46%Z n /\ ~ In 91%Z n /\ ~ In 42%Z n.
Definition good_step (s : fstep) : Prop := field_name (fst s) /\ forall i, snd s = Some i -> index i.
Definition good (p : path) : Prop := p <> [] /\ Forall good_step p.
(** No step but the first has an index. *)
Definition flat (p : path) : Prop := Forall (fun s => snd s = None) (tl p).

(** [q] is an initial piece of [p]. *)
Definition leading (q p : path) : Prop := q <> [] /\ exists r, p = q ++ r.

(** The comment above CreateSet: the initial pieces of the path, with and without the index at their end. *)
Definition documented (p : path) (x : text) : Prop :=
  exists q, leading q p /\
    (x = show q \/ exists q' n i, q = q' ++ [(n, Some i)] /\ x = show (q' ++ [(n, None)])).
(** What is put into the set: the initial pieces, and the bare names of the steps which have an index. *)
Definition put_in (p : path) (x : text) : Prop :=
  (exists q, leading q p /\ x = show q) \/ exists i, In (x, Some i) p.

(** What a program asked for: insertions since it last cleared the filter. *)
Inductive wish := Want (p : path) | Nothing.
Definition call_of (w : wish) : flt_op := match w with Want p => FltInsert (show p) | Nothing => FltClear end.
Fixpoint wanted (ws : list wish) (acc : list path) : list path :=
  match ws with
  | [] => acc
  | Want p :: ws' => wanted ws' (acc ++ [p])
  | Nothing :: ws' => wanted ws' []
  end.
Definition good_wish (w : wish) : Prop := match w with Want p => good p | Nothing => True end.

(** [y] goes on where [x] ends, as a piece of text. *)
Definition extends (y x : text) : Prop := exists z, z <> [] /\ y = x ++ z.
(** The initial pieces of a flat path, the name of its first step included. *)
Definition chain (p : path) (x : text) : Prop := documented p x.

(** For the examples. *)
Definition a_b : path := [(str "a", None); (str "b", None)].
Definition a1_b : path := [(str "a", Some (str "1")); (str "b", None)].
Definition a1_c : path := [(str "a", Some (str "1")); (str "c", None)].
Definition as_b : path := [(str "a", Some (str "*")); (str "b", None)].
Definition a_b1 : path := [(str "a", None); (str "b", Some (str "1"))].
Definition a1_b2_c : path := [(str "a", Some (str "1")); (str "b", Some (str "2")); (str "c", None)].
Definition ab : path := [(str "ab", None)].
Definition aa : path := [(str "a", None)].
