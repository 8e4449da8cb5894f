(** Model of the string and command line utilities: lib/ecal_utils/include/ecal_utils/string.h and
    ecal_utils.h (ExpandEnvVars 245-374, namespace CommandLine 377-675).

    Positions in a string are modelled by the rest of the string from there on.  Simplified:
    isspace and isalnum are those of the C locale, false for bytes above 127 (isalnum of a negative
    char is undefined, line 306); Replace starts at position 0. *)
From Verif Require Import Base Sample.

Definition is_blank (c : Z) : bool := ((c =? 32) || ((9 <=? c) && (c <=? 13)))%Z%bool.   (* std::isspace *)
Definition among (c : Z) (d : text) : bool := existsb (Z.eqb c) d.                       (* delim.find(c) != npos *)

(** ** string.h *)
(** Split 82-102: the first inner loop, the second one, the outer one. *)
Fixpoint skip_delim (d s : text) : text :=
  match s with [] => [] | c :: s' => if among c d then skip_delim d s' else s end.
Fixpoint run_of (d s : text) : text * text :=
  match s with
  | [] => ([], [])
  | c :: s' => if among c d then ([], s) else let (p, r) := run_of d s' in (c :: p, r)
  end.
Fixpoint split_loop (fuel : nat) (d s : text) : list text :=
  match fuel, s with
  | S f, _ :: _ =>
      let (p, r) := run_of d (skip_delim d s) in
      match p with [] => split_loop f d r | _ => p :: split_loop f d r end
  | _, _ => []
  end.
Definition str_split (d s : text) : list text := split_loop (length s) d s.
(** Join 224-237. *)
Fixpoint str_join (d : text) (ps : list text) : text :=
  match ps with [] => [] | [p] => p | p :: ps' => p ++ d ++ str_join d ps' end.
(** std::string::find: the position of the first occurrence. *)
Fixpoint starts (x s : text) : bool :=
  match x, s with [], _ => true | a :: x', b :: s' => ((a =? b)%Z && starts x' s')%bool | _, [] => false end.
Fixpoint find_at (x s : text) : option nat :=
  if starts x s then Some 0 else match s with [] => None | _ :: s' => option_map S (find_at x s') end.
(** Replace 35-53; None: the loop does not end. *)
Fixpoint replace_loop (fuel : nat) (x y s : text) : option text :=
  match fuel with
  | 0 => None
  | S f => match find_at x s with
           | Some n => option_map (fun r => firstn n s ++ y ++ r) (replace_loop f x y (skipn (n + length x) s))
           | None => Some s
           end
  end.
Definition str_replace (s x y : text) : option text := replace_loop (S (length s)) x y s.
(** Trim 216-222. *)
Fixpoint skip_blank (s : text) : text := match s with [] => [] | c :: s' => if is_blank c then skip_blank s' else s end.
Definition str_trim (s : text) : text := rev (skip_blank (rev (skip_blank s))).
(** htmlEscape 252-267. *)
Definition escape_char (c : Z) : text :=
  if (c =? 38)%Z then str "&amp;" else if (c =? 34)%Z then str "&quot;" else if (c =? 39)%Z then str "&apos;"
  else if (c =? 60)%Z then str "&lt;" else if (c =? 62)%Z then str "&gt;" else [c].
Definition html_escape (s : text) : text := flat_map escape_char s.
(** CenterString 239-250: the string and the result. *)
Definition center (s : text) (pad : Z) (n : nat) : text * bool :=
  if (n <=? length s)%nat then (s, false)
  else let e := n - length s in let l := e / 2 in (repeat pad l ++ s ++ repeat pad (e - l), true).

(** SplitQuotedString 104-214. *)
Inductive qstate := QNone | QString | QQuoted.
Fixpoint quoted_loop (esc : Z) (rm keep : bool) (st : qstate) (cur s : text) : list text :=
  let q := if rm then [] else [34%Z] in
  let other st' c s' :=
    match s' with
    | c2 :: s'' => if ((c =? esc) && ((c2 =? 34) || (c2 =? esc)))%Z%bool then quoted_loop esc rm keep st' (cur ++ [c2]) s''
                   else quoted_loop esc rm keep st' (cur ++ [c]) s'
    | [] => quoted_loop esc rm keep st' (cur ++ [c]) s'
    end in
  match s with
  | [] => match cur, keep with [], false => [] | _, _ => [cur] end
  | c :: s' =>
      match st with
      | QNone => if is_blank c then quoted_loop esc rm keep QNone cur s'
                 else if (c =? 34)%Z then quoted_loop esc rm keep QQuoted (cur ++ q) s' else other QString c s'
      | QString => if is_blank c then cur :: quoted_loop esc rm keep QNone [] s'
                   else if (c =? 34)%Z then quoted_loop esc rm keep QQuoted (cur ++ q) s' else other QString c s'
      | QQuoted => if (c =? 34)%Z then quoted_loop esc rm keep QString (cur ++ q) s' else other QQuoted c s'
      end
  end.
Definition split_quoted (s : text) (esc : Z) (rm keep : bool) : list text := quoted_loop esc rm keep QNone [] s.

(** ** Environment variables: ExpandEnvVars 245-374 (not Windows) *)
Definition word_char (c : Z) : bool :=
  (((48 <=? c) && (c <=? 57)) || ((65 <=? c) && (c <=? 90)) || ((97 <=? c) && (c <=? 122)) || (c =? 95))%Z%bool.
Fixpoint word_of_text (s : text) : text * text :=
  match s with [] => ([], []) | c :: s' => if word_char c then let (w, r) := word_of_text s' in (c :: w, r) else ([], s) end.
Fixpoint expand_loop (env : text -> option text) (fuel : nat) (s : text) : text :=
  match fuel, s with
  | S f, c :: s' =>
      if (c =? 36)%Z then
        let '(br, pre, s1) :=
          match s' with
          | c2 :: s2 => if (c2 =? 40)%Z then (Some 41%Z, [36%Z; 40%Z], s2) else if (c2 =? 123)%Z then (Some 125%Z, [36%Z; 123%Z], s2) else (None, [36%Z], s')
          | [] => (None, [36%Z], s')
          end in
        let (name, r) := word_of_text s1 in
        let out := match env name with Some v => v | None => pre ++ name end in
        let closed := match env name with Some _ => [] | None => match br with Some b => [b] | None => [] end end in
        match br, r with
        | Some b, c3 :: r' => if (c3 =? b)%Z then out ++ closed ++ expand_loop env f r' else out ++ expand_loop env f r
        | _, _ => out ++ expand_loop env f r
        end
      else if (c =? 92)%Z then
        match s' with
        | c2 :: s2 => if ((c2 =? 37) || (c2 =? 36))%Z%bool then c2 :: expand_loop env f s2 else c :: expand_loop env f s'
        | [] => c :: expand_loop env f s'
        end
      else c :: expand_loop env f s'
  | _, _ => []
  end.
Definition expand (env : text -> option text) (s : text) : text := expand_loop env (length s) s.

(** ** Command lines *)
(** ToArgv 561-626. *)
Fixpoint argv_loop (quote squote inside : bool) (cur s : text) : list text :=
  match s with
  | [] => if inside then [cur] else []
  | c :: s' =>
      if (inside && negb quote && negb squote && is_blank c)%bool then cur :: argv_loop quote squote false [] s'
      else if ((c =? 39)%Z && negb quote)%bool then argv_loop quote (negb squote) true cur s'
      else if ((c =? 34)%Z && negb squote)%bool then argv_loop (negb quote) squote true cur s'
      else if (c =? 92)%Z then
        match s' with
        | c2 :: s'' => argv_loop quote squote true (cur ++ [c2]) s''
        | [] => argv_loop quote squote true cur s'
        end
      else if (quote || squote)%bool then argv_loop quote squote inside (cur ++ [c]) s'
      else if negb (is_blank c) then argv_loop quote squote true (cur ++ [c]) s'
      else argv_loop quote squote inside cur s'
  end.
Definition to_argv (s : text) : list text := argv_loop false false false [] s.
(** ToCommandLine 628-675. *)
Definition escape_arg_char (c : Z) : text :=
  if (c =? 92)%Z then [92%Z; 92%Z] else if (c =? 34)%Z then [92%Z; 34%Z] else if (c =? 39)%Z then [92%Z; 39%Z] else [c].
Definition escape_arg (a : text) : text :=
  let q := if among 32%Z a then [34%Z] else [] in
  match q ++ flat_map escape_arg_char a ++ q with [] => [34%Z; 34%Z] | e => e end.
Definition to_command_line (l : list text) : text := str_join [32%Z] (map escape_arg l).
(** GetEndOfNextArgument 440-490: the argument and what follows. *)
Fixpoint end_of_arg (dq sq : bool) (s : text) : text * text :=
  match s with
  | [] => ([], [])
  | c :: s' =>
      if (c =? 92)%Z then
        match s' with
        | c2 :: s'' => let (a, r) := end_of_arg dq sq s'' in (c :: c2 :: a, r)
        | [] => ([c], [])
        end
      else if ((c =? 32)%Z && negb dq && negb sq)%bool then ([], s)
      else if (c =? 34)%Z then let (a, r) := end_of_arg (if sq then dq else negb dq) sq s' in (c :: a, r)
      else if (c =? 39)%Z then let (a, r) := end_of_arg dq (if dq then sq else negb sq) s' in (c :: a, r)
      else let (a, r) := end_of_arg dq sq s' in (c :: a, r)
  end.
(** splitCommandLine 510-559; left: the number of arguments still to come, None: unlimited.
    GetStartOfNextArgument 388-412 is skip_blank. *)
Fixpoint split_cl_loop (fuel : nat) (left : option nat) (s : text) : list text :=
  match fuel, left with
  | 0, _ | _, Some 0 => []
  | S f, _ =>
      match skip_blank s with
      | [] => []
      | s1 => match left with
              | Some 1 => [s1]
              | _ => let (a, r) := end_of_arg false false s1 in a :: split_cl_loop f (option_map pred left) r
              end
      end
  end.
Definition split_command_line (s : text) (max : nat) : list text :=
  split_cl_loop (S (length s)) (match max with 0 => None | _ => Some max end) s.
