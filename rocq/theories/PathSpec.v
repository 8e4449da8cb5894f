(** Vocabulary for paths. *)
From Verif Require Import Base Sample StrModel PathModel.

(** Where a path leads: the components from the root, the last one first, without symbolic links.
    A dot stays, two dots go up (at the root they stay), a name goes down. *)
Definition go (here : list text) (p : text) : list text :=
  if eqb p [46%Z] then here else if eqb p [46%Z; 46%Z] then tl here else p :: here.
(** The place denoted by s in the directory cwd. *)
Definition place (cwd : list text) (s : text) : list text :=
  fold_left go (str_split [47%Z] s) (match s with 47%Z :: _ => [] | _ => cwd end).
(** The place denoted by an absolute path. *)
Definition place_of (s : text) : list text := place [] s.

(** The path is relative and its first component is a dot. *)
Definition dot_first (s : text) : Prop := match s with 47%Z :: _ => False | _ => exists r, str_split [47%Z] s = [46%Z] :: r end.
(** A name: not empty, without separator, neither dot nor two dots. *)
Definition name (p : text) : Prop := p <> [] /\ ~ In 47%Z p /\ p <> [46%Z] /\ p <> [46%Z; 46%Z].
(** An ordinary absolute directory: it starts with exactly one slash and has no backslash. *)
Definition ordinary (s : text) : Prop := (exists c r, s = 47%Z :: c :: r /\ c <> 47%Z) /\ ~ In 92%Z s.
(** a is the beginning of b. *)
Definition prefix (a b : list text) : Prop := exists c, b = a ++ c.
(** The directory of everything that exists exists. *)
Definition sound_fs (fs : files) : Prop := forall q x, aget (q ++ [x]) fs <> None -> q = [] \/ aget q fs = Some true.

(** Absolute paths of Windows. *)
Definition slashes : text := str "/\".
Definition latin (c : Z) : Prop := (65 <= c <= 90 \/ 97 <= c <= 122)%Z.
Definition drive_path (s : text) : Prop := exists a r, s = a :: 58%Z :: r /\ latin a /\
  ((exists c t, r = c :: t /\ In c slashes) \/ forall c, In c r -> c = 32%Z).
Definition host_path (s : text) : Prop := exists a b c r, s = a :: b :: c :: r /\ In a slashes /\ In b slashes /\ ~ In c slashes.
