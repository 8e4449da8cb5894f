(** Vocabulary for strings and command lines. *)
From Verif Require Import Base Sample StrModel.

(** ** Splitting *)
(** The pieces of s: the maximal non-empty runs of characters that are not among d, in order. *)
Definition begins_with (d s : text) : Prop := match s with [] => True | c :: _ => In c d end.
Inductive pieces (d : text) : text -> list text -> Prop :=
| pieces_none g : Forall (fun c => In c d) g -> pieces d g []
| pieces_more g p r ps : Forall (fun c => In c d) g -> p <> [] -> Forall (fun c => ~ In c d) p -> begins_with d r ->
    pieces d r ps -> pieces d (g ++ p ++ r) (p :: ps).

(** ** Replacing *)
(** x occurs in s at position n. *)
Definition occurs_at (x s : text) (n : nat) : Prop := exists a b, length a = n /\ s = a ++ x ++ b.
(** t is s with the occurrences of x, from the left and without overlap, replaced by y. *)
Inductive replaced (x y : text) : text -> text -> Prop :=
| replaced_none s : (forall n, ~ occurs_at x s n) -> replaced x y s s
| replaced_one a s t : (forall n, n < length a -> ~ occurs_at x (a ++ x ++ s) n) -> replaced x y s t ->
    replaced x y (a ++ x ++ s) (a ++ y ++ t).

(** ** Blanks *)
Definition blank_char (c : Z) : Prop := (c = 32 \/ c = 9 \/ c = 10 \/ c = 11 \/ c = 12 \/ c = 13)%Z.
Definition trimmed (s : text) : Prop :=
  (forall c r, s = c :: r -> ~ blank_char c) /\ (forall c r, s = r ++ [c] -> ~ blank_char c).

(** ** Entities *)
(** Reading the five entities; anything else is itself. *)
Fixpoint unescape (fuel : nat) (s : text) : text :=
  match fuel with
  | 0 => []
  | S f =>
      match s with
      | [] => []
      | c :: r =>
          if starts (str "&amp;") s then 38%Z :: unescape f (skipn 5 s) else if starts (str "&quot;") s then 34%Z :: unescape f (skipn 6 s)
          else if starts (str "&apos;") s then 39%Z :: unescape f (skipn 6 s) else if starts (str "&lt;") s then 60%Z :: unescape f (skipn 4 s)
          else if starts (str "&gt;") s then 62%Z :: unescape f (skipn 4 s) else c :: unescape f r
      end
  end.

(** ** Quoted strings *)
(** A part as it is written: in quotes, with quotes and escape characters escaped. *)
Definition quote_char (esc c : Z) : text := if ((c =? 34) || (c =? esc))%Z%bool then [esc; c] else [c].
Definition quoted (esc : Z) (p : text) : text := [34%Z] ++ flat_map (quote_char esc) p ++ [34%Z].
Definition row (esc : Z) (ps : list text) : text := str_join [32%Z] (map (quoted esc) ps).

(** The part as it is returned: without its quotes, or with them. *)
Definition bounded_by_quotes (rm : bool) (p : text) : text := if rm then p else [34%Z] ++ p ++ [34%Z].

(** ** Environment variables *)
Inductive tpart :=
| TText (s : text)                    (* no dollar sign and no backslash *)
| TEscaped                            (* a backslash and a dollar sign *)
| TBare (name : text)                 (* a dollar sign and a name *)
| TRound (name : text)                (* the name in parentheses *)
| TCurly (name : text).               (* the name in braces *)
Definition written (p : tpart) : text :=
  match p with
  | TText s => s
  | TEscaped => [92%Z; 36%Z]
  | TBare n => 36%Z :: n
  | TRound n => [36%Z; 40%Z] ++ n ++ [41%Z]
  | TCurly n => [36%Z; 123%Z] ++ n ++ [125%Z]
  end.
Definition name_char (c : Z) : Prop := (48 <= c <= 57 \/ 65 <= c <= 90 \/ 97 <= c <= 122 \/ c = 95)%Z.
(** What it stands for: the value of the variable; the text as written, if there is none. *)
Definition meaning (env : text -> option text) (p : tpart) : text :=
  match p with
  | TText s => s
  | TEscaped => [36%Z]
  | TBare n | TRound n | TCurly n => match env n with Some v => v | None => written p end
  end.
(** A template: names consist of letters, digits and underscores; a bare name is not empty and ends
    where no such character follows. *)
Fixpoint template (l : list tpart) : Prop :=
  match l with
  | [] => True
  | p :: l' =>
      match p with
      | TText s => ~ In 36%Z s /\ ~ In 92%Z s
      | TEscaped => True
      | TBare n => Forall name_char n /\ n <> [] /\ match flat_map written l' with c :: _ => ~ name_char c | [] => True end
      | TRound n | TCurly n => Forall name_char n
      end /\ template l'
  end.

(** ** Command lines *)
(** An argument that has a blank other than the space has a space, too. *)
Definition sound_arg (a : text) : Prop := In 32%Z a \/ forall c, In c a -> ~ blank_char c.
(** The only blank is the space. *)
Definition spaces_only (s : text) : Prop := forall c, In c s -> blank_char c -> c = 32%Z.
