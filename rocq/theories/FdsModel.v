(** Model of GetFileDescriptor, which collects the file descriptors a protobuf message type needs:
    ecal/msg/protobuf/include/ecal/msg/protobuf/ecal_proto_hlp.h 61-127.

    The compiled descriptors are two tables, of files and of message types; entries are numbers.  A message type
    counts for its file and the message types of its fields, a file for its name, the files it imports, its
    message types at top level and whether it has enums and services.  The set under construction is the list of
    its files; copying a descriptor is not modelled.  The calls are counted. *)
From Verif Require Import Base Sample.

Record fmsg := { fm_file : nat; fm_fields : list (option nat) }.     (* None: the field is not of a message type *)
Record ffile := { ff_name : text; ff_deps : list nat; ff_top : list nat; ff_enums : bool; ff_services : bool }.
Record world := { w_files : nat; w_msgs : nat; w_file : nat -> ffile; w_msg : nat -> fmsg }.

(** HasFile 61-71. *)
Definition fds_has (w : world) (s : list nat) (f : nat) : bool :=
  existsb (fun g => eqb (ff_name (w_file w g)) (ff_name (w_file w f))) s.
(** add_file and CopyTo, unless the file is there (94-98, 107-111). *)
Definition fds_add (w : world) (b : bool) (f : nat) (s : list nat) : list nat :=
  if (b && negb (fds_has w s f))%bool then s ++ [f] else s.

Section OFold.
  Context {A S : Type} (f : A -> S -> option S).
  Fixpoint ofold (l : list A) (s : S) : option S :=
    match l with [] => Some s | a :: l' => match f a s with None => None | Some s' => ofold l' s' end end.
End OFold.

(** GetFileDescriptor 73-127 for the message type [m]; the state is the set and the number of calls.  None: the
    recursion is deeper than [fuel]. *)
Fixpoint collect (fuel : nat) (w : world) (m : nat) (st : list nat * Z) : option (list nat * Z) :=
  match fuel with
  | 0 => None
  | S fu =>
      let fd := fm_file (w_msg w m) in
      match ofold (fun d st =>
              match ofold (collect fu w) (ff_top (w_file w d)) st with
              | None => None
              | Some (s, c) => Some (fds_add w (ff_services (w_file w d)) d (fds_add w (ff_enums (w_file w d)) d s), c)
              end) (ff_deps (w_file w fd)) (fst st, snd st + 1)%Z
      with
      | None => None
      | Some (s, c) =>
          if fds_has w s fd then Some (s, c)
          else ofold (fun t st => match t with None => Some st | Some t => collect fu w t st end)
                     (fm_fields (w_msg w m)) (s ++ [fd], c)
      end
  end.
