(** Model of the message filters of the protobuf decoder:
    ecal/msg/protobuf/src/ecal_proto_message_filter.cpp.

    A std::set of strings is its list of elements in increasing order.  Simplified: the functions of
    one filter exclude one another (elements_mutex), so they are taken one after the other. *)
From Verif Require Import Base Sample DscModel StrModel.

(** The items std::getline(input, item, '.') gives, one after the other (52): an item ends at a dot or at
    the end of the input, and there is none after the last dot. *)
Fixpoint flt_items (s : text) : list text :=
  match s with
  | [] => []
  | c :: s' => if (c =? 46)%Z then [] :: flt_items s'
               else match flt_items s' with [] => [[c]] | i :: l => (c :: i) :: l end
  end.

(** CreateSet 46-75: what the loop inserts, in the order of insertion; the text before the bracket is inserted
    without what precedes the item (65-69). *)
Fixpoint flt_ids (include : text) (items : list text) : list text :=
  match items with
  | [] => []
  | item :: l =>
      let before := match include with [] => [] | _ => include ++ [46%Z] end in
      let extra := if among 91 item then [fst (run_of [91%Z] item)] else [] in
      extra ++ (before ++ item) :: flt_ids (before ++ item) l
  end.
Definition flt_set (input : text) : list text := set_all text_ltb (flt_ids [] (flt_items input)) [].

(** BaseIncludeFilter::Insert 83-92: the union of two ordered sets, inserted into the first of them.  What is
    inserted while the first range is read lies before the place of reading. *)
Definition flt_insert (input : text) (l : list text) : list text := set_all text_ltb (flt_set input) l.

(** BaseIncludeFilter::Erase 95-118.  None: an identifier is not in the set; the iterator past the end is
    moved on (110), which is undefined. *)
Fixpoint flt_following (x : text) (l : list text) : option (option text) :=
  match l with
  | [] => None
  | y :: l' => if eqb x y then Some (hd_error l') else flt_following x l'
  end.
Definition flt_without (x : text) (l : list text) : list text := filter (fun y => negb (eqb x y)) l.
Fixpoint flt_erase_loop (ids : list text) (l : list text) : option (list text) :=
  match ids with
  | [] => Some l
  | x :: ids' =>
      match flt_following x l with
      | None => None
      | Some (Some y) => if starts x y then Some l else flt_erase_loop ids' (flt_without x l)
      | Some None => flt_erase_loop ids' (flt_without x l)
      end
  end.
Definition flt_erase (input : text) (l : list text) : option (list text) := flt_erase_loop (rev (flt_set input)) l.

(** The calls of a program; None after an undefined one. *)
Inductive flt_op := FltInsert (s : text) | FltErase (s : text) | FltClear.
Definition flt_step (l : option (list text)) (o : flt_op) : option (list text) :=
  match l, o with
  | None, _ => None
  | Some l, FltInsert s => Some (flt_insert s l)
  | Some l, FltErase s => flt_erase s l
  | Some l, FltClear => Some []
  end.
Definition flt_run (ops : list flt_op) : option (list text) := fold_left flt_step ops (Some []).

(** SimpleIncludeFilter::Filter 124-128. *)
Definition flt_has (x : text) (l : list text) : bool := existsb (eqb x) l.

(** std::regex_search with ([^\[]+)(?:\[(\d+|\* )\])? (150): the first place where there is a character other than
    '[', the longest run of such characters, then the bracket if it is there.  Gives match[1], match[2] and
    the suffix. *)
Definition flt_digit (c : Z) : bool := ((48 <=? c) && (c <=? 57))%Z.
Fixpoint flt_digits (s : text) : text * text :=
  match s with
  | [] => ([], [])
  | c :: s' => if flt_digit c then let (d, r) := flt_digits s' in (c :: d, r) else ([], s)
  end.
Definition flt_bracket (s : text) : option text * text :=
  match s with
  | 91%Z :: 42%Z :: 93%Z :: r => (Some [42%Z], r)
  | 91%Z :: s' => match flt_digits s' with
                  | ((_ :: _) as d, 93%Z :: r) => (Some d, r)
                  | _ => (None, s)
                  end
  | _ => (None, s)
  end.
Definition flt_match (s : text) : option (text * option text * text) :=
  match run_of [91%Z] (skip_delim [91%Z] s) with
  | ([], _) => None
  | (p, r) => Some (p, fst (flt_bracket r), snd (flt_bracket r))
  end.

(** ComplexIncludeFilter::Filter 135-183; elem_to_find is [e]. *)
Fixpoint flt_complex_loop (fuel : nat) (l : list text) (e s : text) : bool :=
  match fuel with
  | 0 => true
  | S f =>
      match flt_match s with
      | None => true
      | Some (p, None, _) => flt_has (e ++ p) l
      | Some (p, Some i, r) =>
          let number := e ++ p ++ [91%Z] ++ i ++ [93%Z] in
          let star := e ++ p ++ str "[*]" in
          if (negb (eqb p [42%Z]) && flt_has number l)%bool then flt_complex_loop f l (e ++ number) r
          else if flt_has star l then flt_complex_loop f l (e ++ star) r
          else false
      end
  end.
Definition flt_complex (s : text) (l : list text) : bool := flt_complex_loop (S (length s)) l [] s.
