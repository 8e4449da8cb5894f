(** Model of the typed publishers and subscribers of flatbuffers, messagepack and Cap'n Proto, and of publishers that hold
    their message: ecal/core/include/ecal/msg/flatbuffers/*.h, messagepack/*.h, capnproto/publisher.h, capnproto/subscriber.h,
    protobuf/dynamic_publisher.h.

    Messages are taken to be their bytes where a library only moves them; packing and parsing are oracles (Section
    variables).  Sending itself is in MsgModel and WrModel. *)
From Verif Require Import Base Sample MsgModel.

(** ** Flatbuffers: the message type is a FlatBufferBuilder, its contents are bytes *)
(** flatbuffers/publisher.h 114-117. *)
Definition fb_size (m : list Z) : nat := length m.
(** 128-133. *)
Definition fb_serialize (m : list Z) (n : nat) : option (list Z) := if Nat.ltb n (length m) then None else Some m.
(** static_cast<int>. *)
Definition as_int (n : Z) : Z := ((n + 2 ^ 31) mod 2 ^ 32 - 2 ^ 31)%Z.
(** FlatbuffersDeserializer::Deserialize, flatbuffers/subscriber.h 45-49: PushFlatBuffer puts the bytes in front of those
    that are there.  None: the size became negative, memory outside the buffer is read. *)
Definition fb_deserialize (m b : list Z) : option (list Z) :=
  let n := as_int (Z.of_nat (length b)) in
  if (n <? 0)%Z then None else Some (firstn (Z.to_nat n) b ++ m).
(** Receive into the same object again and again. *)
Fixpoint fb_receive_all (m : list Z) (bs : list (list Z)) : option (list Z) :=
  match bs with
  | [] => Some m
  | b :: bs' => match fb_deserialize m b with Some m' => fb_receive_all m' bs' | None => None end
  end.

(** ** Messagepack *)
Section Pack.
  Variable M : Type.
  Variable pack : M -> list Z.
  (** messagepack/publisher.h 117-122. *)
  Definition mp_size (m : M) : nat := length (pack m).
  (** 133-143: read copies what is there, at most n bytes. *)
  Definition mp_serialize (m : M) (n : nat) : option (list Z) := if Nat.ltb n (length (pack m)) then None else Some (firstn n (pack m)).
End Pack.

(** ** Cap'n Proto *)
(** CPayload of capnproto/publisher.h, 69-81: a message is the words of its flat array, a word is eight bytes. *)
Definition cp_size (words : list (list Z)) : nat := length words * 8.
Definition cp_write_full (words : list (list Z)) (len : nat) : option (list Z) :=
  if Nat.ltb len (length (concat words)) then None else Some (concat words).

(** CapnprotoDeserializer, capnproto/subscriber.h 58-67.  Each readable message becomes the root of the one builder; the memory
    of the root before it is zeroed and kept.  A message given to the user is a reader: the number of its root. *)
Section Reader.
  (** The value of the message at the beginning and the words behind it; None: an exception. *)
  Variable parse : list Z -> option (text * nat).
  Record cread := { cr_roots : list text }.
  Definition cread_init : cread := {| cr_roots := [] |}.
  (** The state, and the reader with the result of Deserialize (no words left); None for an exception. *)
  Definition cp_deserialize (s : cread) (b : list Z) : cread * option (nat * bool) :=
    match parse (firstn (length b / 8 * 8) b) with
    | None => (s, None)
    | Some (v, rest) => ({| cr_roots := cr_roots s ++ [v] |}, Some (length (cr_roots s), Nat.eqb rest 0))
    end.
  (** What a reader shows: the value of the newest root, the default value for the others. *)
  Definition cp_read (s : cread) (r : nat) : text := if Nat.eqb (S r) (length (cr_roots s)) then nth r (cr_roots s) [] else [].
  Definition cp_all (bs : list (list Z)) : cread := fold_left (fun s b => fst (cp_deserialize s b)) bs cread_init.
End Reader.

(** ** Publishers that hold their message *)
(** A message object: a protobuf message, shared by those who have a pointer to it, or the builder of one Cap'n Proto publisher; its
    type and contents.  Protobuf messages nobody has a pointer to are not removed here: nobody can tell. *)
Record hmsg := HMsg { hm_shared : bool; hm_type : text; hm_value : list Z }.
(** capnproto::CPublisher and protobuf::CDynamicPublisher: the topic of the base (none: not created), the message it sends
    (builder, m_msg; none: null) and the one GetBuilder or GetMessage gives (root_builder, m_msg). *)
Record hpub := HPub { hp_dyn : bool; hp_topic : option text; hp_msg : option nat; hp_edit : option nat }.
(** Messages are numbered in the order of their construction; those that are gone are not in the list. *)
Record hstate := HState { hs_pubs : list (nat * hpub); hs_heap : list (nat * hmsg); hs_next : nat }.
Definition hs_init : hstate := HState [] [] 0.
Inductive hact :=
| HCapnp (k : nat) (topic ty : text)              (* capnproto/publisher.h 104-109 *)
| HMessage (ty : text) (v : list Z)               (* the user makes a protobuf message *)
| HDyn (k : nat) (topic : text) (m : option nat)  (* dynamic_publisher.h 65-67 with a message or a null pointer *)
| HName (k : nat) (topic ty : text)               (* dynamic_publisher.h 75-77 *)
| HEdit (k : nat) (v : list Z)                    (* GetBuilder 158-161 or GetMessage 101-104 is called, what it gives is changed *)
| HWrite (m : nat) (v : list Z)                   (* a message (or the builder of a message got earlier) is changed *)
| HSend (k : nat)                                 (* capnproto/publisher.h 163-167, dynamic_publisher.h 91-94 *)
| HMove (a b : nat)                               (* b is constructed from a: capnproto/publisher.h 124, dynamic_publisher.h 81 *)
| HAssign (a b : nat)                             (* a is assigned from b: capnproto/publisher.h 129, dynamic_publisher.h 82 *)
| HDelete (k : nat).
(** HNoProgram: names of objects that do not exist, or exist already. *)
Inductive hout := HAnnounce (topic ty : text) | HSent (topic : text) (v : list Z) | HThrow | HUb | HDone | HNoProgram.

Section Hold.
  (** The message types linked into the program: FindMessageTypeByName of the generated pool, dynamic_publisher.h 170-171. *)
  Variable generated : text -> bool.
  Definition h_set (k : nat) (p : hpub) (s : hstate) : hstate := HState (aset k p (hs_pubs s)) (hs_heap s) (hs_next s).
  Definition h_new (shared : bool) (ty : text) (v : list Z) (s : hstate) : hstate :=
    HState (hs_pubs s) (aset (hs_next s) (HMsg shared ty v) (hs_heap s)) (S (hs_next s)).
  Definition h_write (m : nat) (v : list Z) (s : hstate) : option hstate :=
    match aget m (hs_heap s) with
    | Some x => Some (HState (hs_pubs s) (aset m (HMsg (hm_shared x) (hm_type x) v) (hs_heap s)) (hs_next s))
    | None => None
    end.
  (** The end of a unique_ptr (capnproto/publisher.h 137, 184); a shared_ptr leaves the message alone. *)
  Definition h_free (p : hpub) (s : hstate) : hstate :=
    if hp_dyn p then s
    else match hp_msg p with Some m => HState (hs_pubs s) (adel m (hs_heap s)) (hs_next s) | None => s end.
  (** What a move leaves: the base is not created, the pointers are null, but root_builder is copied. *)
  Definition h_left (p : hpub) : hpub := HPub (hp_dyn p) None None (if hp_dyn p then None else hp_edit p).
  Definition h_step (s : hstate) (a : hact) : hstate * hout :=
    match a with
    | HCapnp k t ty =>
        if amem k (hs_pubs s) then (s, HNoProgram)
        else (h_set k (HPub false (Some t) (Some (hs_next s)) (Some (hs_next s))) (h_new false ty [] s), HAnnounce t ty)
    | HMessage ty v => (h_new true ty v s, HDone)
    | HDyn k t m =>
        if amem k (hs_pubs s) then (s, HNoProgram)
        else match m with
             | None => (h_set k (HPub true (Some t) None None) s, HAnnounce t [])   (* dynamic_publisher.h 141-142; no assertions *)
             | Some m => match aget m (hs_heap s) with
                         | Some (HMsg true ty _) => (h_set k (HPub true (Some t) (Some m) (Some m)) s, HAnnounce t ty)
                         | _ => (s, HNoProgram)
                         end
             end
    | HName k t ty =>
        if amem k (hs_pubs s) then (s, HNoProgram)
        else if generated ty
             then (h_set k (HPub true (Some t) (Some (hs_next s)) (Some (hs_next s))) (h_new true ty [] s), HAnnounce t ty)
             else (s, HThrow)                                                        (* dynamic_publisher.h 173-178 *)
    | HEdit k v =>
        match aget k (hs_pubs s) with
        | None => (s, HNoProgram)
        | Some p => match hp_edit p with
                    | None => (s, HUb)
                    | Some m => match h_write m v s with Some s' => (s', HDone) | None => (s, HUb) end
                    end
        end
    | HWrite m v =>
        if Nat.ltb m (hs_next s)
        then match h_write m v s with Some s' => (s', HDone) | None => (s, HUb) end
        else (s, HNoProgram)
    | HSend k =>
        match aget k (hs_pubs s) with
        | None => (s, HNoProgram)
        | Some p => match hp_msg p with
                    | None => (s, HUb)
                    | Some m => match aget m (hs_heap s) with
                                | None => (s, HUb)
                                | Some x => match hp_topic p with Some t => (s, HSent t (hm_value x)) | None => (s, HDone) end
                                end
                    end
        end
    | HMove a b =>
        if amem b (hs_pubs s) then (s, HNoProgram)
        else match aget a (hs_pubs s) with
             | None => (s, HNoProgram)
             | Some p => (h_set b p (h_set a (h_left p) s), HDone)
             end
    | HAssign a b =>
        if Nat.eqb a b then (s, HNoProgram)
        else match aget a (hs_pubs s), aget b (hs_pubs s) with
             | Some q, Some p =>
                 if eqb (hp_dyn q) (hp_dyn p)
                 then (h_set a p (h_set b (h_left p) (h_free q s)), HDone)
                 else (s, HNoProgram)
             | _, _ => (s, HNoProgram)
             end
    | HDelete k =>
        match aget k (hs_pubs s) with
        | None => (s, HNoProgram)
        | Some p => let s1 := h_free p s in (HState (adel k (hs_pubs s1)) (hs_heap s1) (hs_next s1), HDone)
        end
    end.
  Fixpoint h_run (s : hstate) (l : list hact) : hstate * list hout :=
    match l with
    | [] => (s, [])
    | a :: l' => let (s1, o) := h_step s a in let (s2, os) := h_run s1 l' in (s2, o :: os)
    end.
End Hold.
