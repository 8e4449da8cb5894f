(** The vocabulary of the theorems about the protobuf decoder. *)
From Verif Require Import Base Sample MonModel StrModel FltModel FltSpec VisModel.

(** ** The values in a message *)
(** Number the members of a list. *)
Fixpoint numbered {A} (i : Z) (l : list A) : list (Z * A) :=
  match l with [] => [] | x :: l' => (i, x) :: numbered (i + 1)%Z l' end.
Definition below (s : fstep) (l : list (path * vscalar)) : list (path * vscalar) := map (fun pv => (s :: fst pv, snd pv)) l.
(** Every scalar in the message with the path to it.  A submessage without contents has no values. *)
Fixpoint places (m : vmsg) : list (path * vscalar) :=
  match m with
  | VMsg _ fs =>
      flat_map (fun f =>
        match f with
        | (n, _, _, b) =>
            match b with
            | VOne _ v => [([(n, None)], v)]
            | VMany vs => map (fun iv => ([(n, Some (int_text (fst iv)))], snd iv)) (numbered 0 vs)
            | VSub None => []
            | VSub (Some m') => if listed m' then below (n, None) (places m') else []
            | VSubs ms =>
                (fix go (i : Z) (ms : list vmsg) :=
                   match ms with
                   | [] => []
                   | m' :: ms' => (if listed m' then below (n, Some (int_text i)) (places m') else []) ++ go (i + 1)%Z ms'
                   end) 0%Z ms
            end
        end) fs
  end.

(** The name of a path below a message. *)
Definition under (base : text) (p : path) : text := match base with [] => show p | _ => base ++ [46%Z] ++ show p end.
(** The visitor accepts every field on the way, and for each step with an index either all of them or this one. *)
Fixpoint allowed (acc : text -> bool) (base : text) (p : path) : bool :=
  match p with
  | [] => true
  | (n, o) :: p' =>
      acc (under base [(n, None)]) &&
      match o with None => true | Some i => acc (under base [(n, Some [42%Z])]) || acc (under base [(n, Some i)]) end &&
      allowed acc (under base [(n, o)]) p'
  end%bool.

(** The values a visitor is given, each with its name. *)
Definition said (e : vevent) : list (text * vscalar) :=
  match e with
  | VScalar n g _ _ v => [(under g [(n, None)], v)]
  | VElement n g i _ v => [(under g [(n, Some (int_text i))], v)]
  | _ => []
  end.

(** ** The order of the calls *)
(** What is open: a message (array element or not) with its name, an array with its name and size. *)
Inductive vopen := OMsg (array : bool) (name : text) | OArr (name : text) (size : Z).
Definition vcheck1 (st : option (list vopen)) (e : vevent) : option (list vopen) :=
  match e, st with
  | VScalar _ g _ _ _, Some (OMsg a c :: s) => if eqb g c then st else None
  | VElement n g i _ _, Some (OArr c size :: s) =>
      if (eqb (under g [(n, None)]) c && (0 <=? i)%Z && (i <? size)%Z)%bool then st else None
  | VArray n g _ _ size, Some (OMsg a c :: s) =>
      if eqb g c then Some (OArr (under g [(n, None)]) size :: OMsg a c :: s) else None
  | VArrayEnd, Some (OArr _ _ :: s) => Some s
  | VStart false n g _ _ _, Some (OMsg a c :: s) =>
      if eqb g c then Some (OMsg false (under g [(n, None)]) :: OMsg a c :: s) else None
  | VStart true n g i _ _, Some (OArr c size :: s) =>
      if (eqb (under g [(n, None)]) (c ++ [91%Z] ++ int_text i ++ [93%Z]) && (0 <=? i)%Z && (i <? size)%Z)%bool
      then Some (OMsg true (under g [(n, None)]) :: OArr c size :: s) else None
  | VEnd a, Some (OMsg a' _ :: s) => if Bool.eqb a a' then Some s else None
  | _, _ => None
  end.
(** Every call is made inside the message or the array it names, and everything opened is closed in its turn. *)
Definition in_order (outer : list vopen) (es : list vevent) : Prop := fold_left vcheck1 es (Some outer) = Some outer.

(** ** Messages with reasonable names *)
(** Field names which are good and differ from one another, at every level; no array of 2^31 elements. *)
Fixpoint well_named (m : vmsg) : Prop :=
  match m with
  | VMsg _ fs =>
      Forall field_name (map vname fs) /\ NoDup (map vname fs) /\
      fold_right and True (map (fun f =>
        match snd f with
        | VOne _ _ => True
        | VMany vs => (Z.of_nat (length vs) < 2147483648)%Z
        | VSub None => True
        | VSub (Some m') => well_named m'
        | VSubs ms => (Z.of_nat (length ms) < 2147483648)%Z /\ fold_right and True (map well_named ms)
        end) fs)
  end.

(** ** Sizes *)
Definition sizes_of (c : text) (es : list vevent) : list Z :=
  flat_map (fun e => match e with VArray n g _ _ size => if eqb (under g [(n, None)]) c then [size] else [] | _ => [] end) es.

(** For the examples. *)
Definition int32 (v : Z) : vscalar := VIntegral 1 v.
Definition inner_msg (v : Z) : vmsg := VMsg (str "T.Inner") [(str "x", 1%Z, str "int32", VOne (negb (v =? 0)%Z) (int32 v))].
Definition outer_msg : vmsg :=
  VMsg (str "T.Outer")
    [(str "id", 1%Z, str "int32", VOne true (int32 7));
     (str "list", 2%Z, str "int32", VMany [int32 10; int32 20; int32 30]);
     (str "in", 3%Z, str "message", VSub (Some (inner_msg 5)));
     (str "none", 4%Z, str "message", VSub (Some (inner_msg 0)));
     (str "all", 5%Z, str "message", VSubs [inner_msg 1; inner_msg 0; inner_msg 3])].
Definition nested_msg : vmsg :=
  VMsg (str "T.N") [(str "a", 1%Z, str "message", VSub (Some (VMsg (str "T.A") [(str "b", 1%Z, str "int32", VMany [int32 5])])))].

(** ** Filters *)
Definition starless (p : path) : Prop := forall s, In s p -> snd s <> Some [42%Z].
