(** The vocabulary of the theorems about the deserializers of the dynamic subscribers. *)
From Verif Require Import Base Sample DynModel DynSpec DjsModel.

(** The part of a full type name behind its last dot is [n], a name that does not consist of zero bytes. *)
Definition ends_in (x n : text) : Prop :=
  simple_name n /\ (exists c, In c n /\ c <> 0%Z) /\ (x = n \/ exists q, x = q ++ [46%Z] ++ n).

(** Type information without name or without descriptor. *)
Definition vacuous (i : dinfo) : Prop :=
  snd i = [] \/ fst i = [] \/ (exists q, fst i = q ++ [46%Z]) \/
  exists z, z <> [] /\ (forall c, In c z -> c = 0%Z) /\ (fst i = z \/ exists q, fst i = q ++ [46%Z] ++ z).

(** The answers of the deserializers after a history of type informations and messages. *)
Definition json_after json hs (i : dinfo) (b : list Z) := snd (json_deserialize json (json_run json hs) i b).
Definition proto_after parse (hs : list (dinfo * list Z)) (i : dinfo) (b : list Z) :=
  snd (proto_deserialize parse (fold_left (fun s h => fst (proto_deserialize parse s (fst h) (snd h))) hs deser_init) i b).
Definition capnp_after so up wo hs (i : cinfo) (b : list Z) := snd (capnp_deserialize so up wo (capnp_run so up wo hs) i b).

(** The words of the readable messages. *)
Definition total (wo : list Z -> option Z) (bs : list (list Z)) : Z :=
  fold_right Z.add 0%Z (map (fun b => match wo b with Some w => w | None => 0%Z end) bs).

(** The callback of the user does not end with an exception of its own. *)
Definition well_behaved {I} (a : dact I) : bool := match a with AMessage _ _ ThrowsOther => false | _ => true end.
Definition returning {I} (a : dact I) : bool := match a with AMessage _ _ Returns => true | AMessage _ _ _ => false | _ => true end.
Definition receives {I} (a : dact I) : bool := match a with AReceive _ _ => true | _ => false end.
Definition silences {I} (a : dact I) : bool := match a with AError false => true | _ => false end.
(** The messages that arrive while a callback is set. *)
Fixpoint handled {I} (on : bool) (l : list (dact I)) : nat :=
  match l with
  | [] => 0
  | AMessage _ _ _ :: l' => (if on then 1 else 0) + handled on l'
  | ACallback b :: l' => handled b l'
  | _ :: l' => handled on l'
  end.
(** A message was reported to the user: by the callback or by the error callback. *)
Definition reported {M} (o : dsaid M) : bool := match o with SCalled _ | SComplaint => true | _ => false end.

(** What the subscribers say in a run from the beginning. *)
Definition json_said json l := d_run _ _ _ (json_deserialize json) (dsub_init _ _ jser_init) l.
Definition proto_said parse l := d_run _ _ _ (proto_deserialize parse) (dsub_init _ _ deser_init) l.
Definition capnp_said so up wo l := d_run _ _ _ (capnp_deserialize so up wo) (dsub_init _ _ cser_init) l.

(** For the examples: bytes beginning with 255 are no message; the text of a message is its bytes. *)
Definition plain_json (t : mtype) (b : list Z) : option text := match b with 255%Z :: _ => None | _ => Some b end.
Definition plain_parse (t : mtype) (b : list Z) : text * bool := match b with 255%Z :: b' => (b', false) | _ => (b, true) end.
(** A descriptor of Cap'n Proto whose type is the struct 7, which uses the struct 8; a message takes as many words as it has
    bytes; newer nodes replace older ones. *)
Definition book : cnode := {| cn_id := 7; cn_struct := true; cn_rest := 1 |}.
Definition person : cnode := {| cn_id := 8; cn_struct := true; cn_rest := 2 |}.
Definition book_schema (d : text) : option (Z * list cnode) := if eqb d (str "book") then Some (7%Z, [person; book]) else None.
Definition newest (a b : cnode) : option cnode := Some b.
Definition plain_words (b : list Z) : option Z := match b with 255%Z :: _ => None | _ => Some (Z.of_nat (length b)) end.
Definition book_info : cinfo := (str "AddressBook", str "capnp", str "book").
Definition pose_info : dinfo := (str "b.Pose", [point_a; pose_b]).
Definition inner_info : dinfo := (str "p.Outer.Inner", [outer_p]).
