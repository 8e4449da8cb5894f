(** The vocabulary of the theorems about the dynamic protobuf decoder. *)
From Verif Require Import Base Sample FdsModel FdsSpec DynModel.

(** The full name of a message type. *)
Definition qualified (t : mtype) : text :=
  if eqb (fp_package (fst t)) [] then snd t else fp_package (fst t) ++ str "." ++ snd t.

(** A set of files as a compiler makes it: no file name twice, each file after those it imports, no type defined in
    two files. *)
Record orderly (fs : list fproto) : Prop := {
  o_names : NoDup (map fp_name fs);
  o_deps : forall a f b d, fs = a ++ f :: b -> In d (fp_deps f) -> exists g, In g a /\ fp_name g = d;
  o_types : forall a f b g x y, fs = a ++ f :: b -> In g a -> In x (types_of f) -> In y (types_of g) -> qualified x <> qualified y
}.

(** A name as a field or message has it: not empty, no dot. *)
Definition simple_name (n : text) : Prop := n <> [] /\ ~ In 46%Z n.

(** The answer of a deserializer after the type informations [is]. *)
Definition answer_after (left : bool) (is : list dinfo) (i : dinfo) : dresult := snd (deserialize left (deser_run left is) i).

(** The files of a world (C100) with their contents: [pr] gives each file, [nm] the name of each message type. *)
Record contents (w : world) (pr : nat -> fproto) (nm : nat -> text) : Prop := {
  c_name : forall f, f < w_files w -> fp_name (pr f) = ff_name (w_file w f);
  c_deps : forall f, f < w_files w -> fp_deps (pr f) = map (fun d => ff_name (w_file w d)) (ff_deps (w_file w f));
  c_top : forall f, f < w_files w -> fp_top (pr f) = map nm (ff_top (w_file w f));
  c_types : forall f g x y, f < w_files w -> g < w_files w -> In x (types_of (pr f)) -> In y (types_of (pr g)) ->
    qualified x = qualified y -> f = g
}.

(** For the examples. *)
Definition proto (name package : text) deps top nested rest : fproto :=
  {| fp_name := name; fp_package := package; fp_deps := deps; fp_top := top; fp_nested := nested; fp_rest := rest |}.
(** a.proto: package a, message Pose.  b.proto: package b, imports it, message Pose. *)
Definition pose_a : fproto := proto (str "a.proto") (str "a") [] [str "Pose"] [] 1.
Definition pose_b : fproto := proto (str "b.proto") (str "b") [str "a.proto"] [str "Pose"] [] 2.
(** The same with the message Point before Pose in a.proto. *)
Definition point_a : fproto := proto (str "a.proto") (str "a") [] [str "Point"; str "Pose"] [] 1.
(** Package p, message Outer with the message Inner in it. *)
Definition outer_p : fproto := proto (str "outer.proto") (str "p") [] [str "Outer"] [str "Outer.Inner"] 3.
(** A message without package, in two versions. *)
Definition plain_1 : fproto := proto (str "m.proto") [] [] [str "Msg"] [] 1.
Definition plain_2 : fproto := proto (str "m.proto") [] [] [str "Msg"] [] 2.
(** The same in a package. *)
Definition inside_1 : fproto := proto (str "m.proto") (str "p") [] [str "Msg"] [] 1.
Definition inside_2 : fproto := proto (str "m.proto") (str "p") [] [str "Msg"] [] 2.
(** The contents of plain_world (C100). *)
Definition plain_contents (f : nat) : fproto :=
  match f with
  | 0 => proto (str "a.proto") (str "x") [] [str "A"] [] 0
  | 1 => proto (str "b.proto") (str "y") [str "a.proto"] [str "B"] [] 0
  | _ => proto (str "c.proto") [] [str "b.proto"; str "a.proto"] [str "C"] [str "C.D"] 0
  end.
Definition plain_names (m : nat) : text := match m with 0 => str "A" | 1 => str "B" | _ => str "C" end.
