(** The vocabulary of the theorems about the collection of file descriptors. *)
From Verif Require Import Base Sample FdsModel.

(** One file imports another, directly or by way of others. *)
Inductive reaches (w : world) : nat -> nat -> Prop :=
  | reaches_self f : reaches w f f
  | reaches_step f d g : In d (ff_deps (w_file w f)) -> reaches w d g -> reaches w f g.

(** What the protobuf library guarantees: imports are not circular (a file is entered after those it imports),
    names of files are unique, the tables agree, and the types of fields come from imported files. *)
Record valid (w : world) : Prop := {
  v_deps : forall f d, f < w_files w -> In d (ff_deps (w_file w f)) -> d < f;
  v_top : forall f m, f < w_files w -> In m (ff_top (w_file w f)) -> m < w_msgs w /\ fm_file (w_msg w m) = f;
  v_file : forall m, m < w_msgs w -> fm_file (w_msg w m) < w_files w;
  v_fields : forall m t, m < w_msgs w -> In (Some t) (fm_fields (w_msg w m)) ->
    t < w_msgs w /\ reaches w (fm_file (w_msg w m)) (fm_file (w_msg w t));
  v_names : forall f g, f < w_files w -> g < w_files w -> ff_name (w_file w f) = ff_name (w_file w g) -> f = g
}.

(** The set of descriptors of a message type, and the number of calls it takes. *)
Definition described (w : world) (m : nat) (s : list nat) (c : Z) : Prop :=
  exists fuel, collect fuel w m ([], 0%Z) = Some (s, c).

(** Every file comes after all the files it imports: it can be built in this order. *)
Definition buildable (w : world) (s : list nat) : Prop :=
  forall a f b, s = a ++ f :: b -> forall d, In d (ff_deps (w_file w f)) -> In d a.

(** A file the collection takes along with its imports: it has a message type, or an enum or a service and no imports. *)
Definition substantial (w : world) (f : nat) : Prop :=
  ff_top (w_file w f) <> [] \/
  ((ff_enums (w_file w f) || ff_services (w_file w f))%bool = true /\ ff_deps (w_file w f) = []).

(** For the examples. *)
Definition file_of (n : text) deps top e s := {| ff_name := n; ff_deps := deps; ff_top := top; ff_enums := e; ff_services := s |}.
Definition msg_of f fields := {| fm_file := f; fm_fields := fields |}.
(** a.proto: message A.  b.proto: imports a.proto, an enum and a message with a field of type A.  c.proto: imports
    both, a message with fields of both. *)
Definition plain_world : world :=
  {| w_files := 3; w_msgs := 3;
     w_file := fun f => match f with
                        | 0 => file_of (str "a.proto") [] [0] false false
                        | 1 => file_of (str "b.proto") [0] [1] true false
                        | _ => file_of (str "c.proto") [1; 0] [2] false true
                        end;
     w_msg := fun m => match m with 0 => msg_of 0 [None] | 1 => msg_of 1 [Some 0] | _ => msg_of 2 [Some 1; None; Some 0; Some 2] end |}.
(** x.proto: message X.  forward.proto: only imports x.proto publicly.  main.proto: imports forward.proto, a message with a
    field of type X. *)
Definition forward_world : world :=
  {| w_files := 3; w_msgs := 2;
     w_file := fun f => match f with
                        | 0 => file_of (str "x.proto") [] [0] false false
                        | 1 => file_of (str "forward.proto") [0] [] false false
                        | _ => file_of (str "main.proto") [1] [1] false false
                        end;
     w_msg := fun m => match m with 0 => msg_of 0 [None] | _ => msg_of 2 [Some 0] end |}.
(** types.proto: a message.  service.proto: imports it, a service only.  main.proto: imports service.proto. *)
Definition service_world : world :=
  {| w_files := 3; w_msgs := 2;
     w_file := fun f => match f with
                        | 0 => file_of (str "types.proto") [] [0] false false
                        | 1 => file_of (str "service.proto") [0] [] false true
                        | _ => file_of (str "main.proto") [1] [1] false false
                        end;
     w_msg := fun m => match m with 0 => msg_of 0 [None] | _ => msg_of 2 [None] end |}.
(** A chain of n + 1 files with two message types each, each file importing the one before. *)
Definition chain_world (n : nat) : world :=
  {| w_files := S n; w_msgs := 2 * S n;
     w_file := fun f => file_of [Z.of_nat f] (match f with 0 => [] | S d => [d] end) [2 * f; 2 * f + 1] false false;
     w_msg := fun m => msg_of (Nat.div2 m) [None] |}.
