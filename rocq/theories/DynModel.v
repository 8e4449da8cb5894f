(** Model of the dynamic protobuf decoder: ecal/msg/protobuf/src/ecal_proto_dyn.cpp, and of its use by the dynamic
    subscriber (ecal/core/include/ecal/msg/protobuf/dynamic_subscriber.h 50-117), server.h 149-156 and
    client.h 219-227.

    A file descriptor is its name, its package, the names of the files it imports, the names of its message types at
    top level, those of its nested ones (with those around them: Outer.Inner) and a number for the rest of its
    contents.  The descriptor pool of the protobuf library is the list of the files built.  Simplified: a file is
    refused because of a missing import, because a file of this name is there with other contents or because a
    type of this name is there, and not for faults of its own; prototypes and message objects can always be made;
    a descriptor text is the set of files it contains. *)
From Verif Require Import Base Sample.

Record fproto := { fp_name : text; fp_package : text; fp_deps : list text; fp_top : list text; fp_nested : list text; fp_rest : Z }.
#[export] Instance fproto_eq : EqDec fproto.
Proof. intros a b. repeat decide equality. Defined.
Definition pool := list fproto.
(** A message type: its file, and its name in it. *)
Definition mtype := (fproto * text)%type.

Definition type_name (package n : text) : text := match package with [] => n | _ => package ++ [46%Z] ++ n end.
Definition types_of (f : fproto) : list mtype := map (fun n => (f, n)) (fp_top f ++ fp_nested f).
Definition called_so (x : text) (t : mtype) : bool := eqb (type_name (fp_package (fst t)) (snd t)) x.
(** DescriptorPool::FindMessageTypeByName. *)
Definition pool_type (p : pool) (x : text) : option mtype := find (called_so x) (flat_map types_of p).
Definition pool_file (p : pool) (n : text) : option fproto := find (fun f => eqb (fp_name f) n) p.
(** DescriptorPool::BuildFileCollectingErrors: the pool afterwards; None: refused. *)
Definition build (p : pool) (f : fproto) : option pool :=
  match pool_file p (fp_name f) with
  | Some g => if eqb g f then Some p else None
  | None =>
      if (forallb (fun d => match pool_file p d with Some _ => true | None => false end) (fp_deps f) &&
          forallb (fun t => match pool_type p (type_name (fp_package f) (snd t)) with Some _ => false | None => true end) (types_of f))%bool
      then Some (p ++ [f]) else None
  end.

(** GetProtoMessageFromDescriptorSet 246-310: the loop 269-282; gives the pool and the last file built, None if one was
    refused or there is none. *)
Definition first_is (f : fproto) (x : text) : bool := match fp_top f with n :: _ => eqb n x | [] => false end.
Fixpoint build_loop (p : pool) (x : text) (last : option fproto) (fs : list fproto) : pool * option fproto :=
  match fs with
  | [] => (p, last)
  | f :: fs' => match build p f with
                | None => (p, None)
                | Some p' => if first_is f x then (p', Some f) else build_loop p' x (Some f) fs'
                end
  end.
(** The whole; FileDescriptor::FindMessageTypeByName (288) finds types at top level only. *)
Definition get_message (p : pool) (fs : list fproto) (x : text) : pool * option mtype :=
  match pool_type p x with
  | Some t => (p, Some t)
  | None =>
      let (p', l) := build_loop p x None fs in
      match l with
      | Some f => if existsb (eqb x) (fp_top f) then (p', Some (f, x)) else (p', None)
      | None => (p', None)
      end
  end.

(** ** ProtobufDynamicDeserializer *)
(** The type name behind its last dot (87). *)
Fixpoint short_name (s : text) : text :=
  match s with
  | [] => []
  | c :: s' => if existsb (Z.eqb 46) s then short_name s' else s
  end.
(** What SDataTypeInformation contains: the name and the descriptor (the encoding left out). *)
Definition dinfo := (text * list fproto)%type.
Inductive dresult := DMessage (t : mtype) | DException | DCrash.
(** m_dynamic_decoder and m_message_map; an entry without a message is a null pointer. *)
Record deser := { de_pool : pool; de_map : list (dinfo * option mtype) }.
Definition deser_init : deser := {| de_pool := []; de_map := [] |}.
(** CreateMessagePointer 83-112. *)
Definition create_message (p : pool) (i : dinfo) : pool * option mtype :=
  match short_name (fst i), snd i with
  | [], _ => (p, None)
  | _, [] => (p, None)
  | x, fs => get_message p fs x
  end.
(** GetMessagePointer 73-81 and what Deserialize 54-70 does with the pointer.  [left]: in line 78 the entry is made before
    the message.  C++17, which msg/dynamic.h needs (line 28), makes the message first; before, the language left this open. *)
Definition deserialize (left : bool) (s : deser) (i : dinfo) : deser * dresult :=
  match aget i (de_map s) with
  | Some (Some t) => (s, DMessage t)
  | Some None => (s, DCrash)
  | None =>
      let (p, r) := create_message (de_pool s) i in
      match r with
      | Some t => ({| de_pool := p; de_map := aset i (Some t) (de_map s) |}, DMessage t)
      | None => ({| de_pool := p; de_map := if left then aset i None (de_map s) else de_map s |}, DException)
      end
  end.
Definition deser_run (left : bool) (is : list dinfo) : deser := fold_left (fun s i => fst (deserialize left s i)) is deser_init.

(** GetProtoMessageFromString 208-216 for a parsed text: its name is set to foo.proto (353-359). *)
Definition named_foo (f : fproto) : fproto :=
  {| fp_name := str "foo.proto"; fp_package := fp_package f; fp_deps := fp_deps f; fp_top := fp_top f; fp_nested := fp_nested f; fp_rest := fp_rest f |}.
Definition get_from_text (p : pool) (f : fproto) (x : text) : pool * option mtype := get_message p [named_foo f] x.
(** GetServiceMessageDescFromType 364-382: the descriptor of a type of a service's method, None if it fails.  The set is
    made of the file of the service alone. *)
Definition service_type (p : pool) (f : fproto) (x : text) : pool * option (list fproto) :=
  match get_message p [named_foo f] x with
  | (p', Some _) => (p', Some [named_foo f])
  | (p', None) => (p', None)
  end.
