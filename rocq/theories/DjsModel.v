(** Model of the deserializers of the dynamic subscribers - protobuf messages, protobuf as JSON text, Cap'n Proto - and of
    the part of the subscriber around them (ecal/core/include/ecal/msg/dynamic.h 153-289), with all exceptions:
    ecal/core/include/ecal/msg/protobuf/dynamic_json_subscriber.h 61-144, protobuf/dynamic_subscriber.h 51-116,
    capnproto/dynamic.h 43-81 and capnproto/helper.h 100-121.

    Descriptor pools and files are those of DynModel.  Assignments evaluate the right side first (C++17, which dynamic.h
    needs, line 28).  What the libraries do with the bytes of a message is left open (Section variables).  Simplified: no
    failing allocation; a Cap'n Proto schema node is its id, whether it is a struct, and a number for the rest. *)
From Verif Require Import Base Sample DynModel.

(** What comes out of Deserialize: a message, a DynamicReflectionException, or another exception; [throw new] throws a
    pointer, which is another one. *)
Inductive dout (M : Type) := OMessage (m : M) | OReflection | OOther.
Arguments OMessage {M} m.
Arguments OReflection {M}.
Arguments OOther {M}.

(** StrEmptyOrNull, dynamic.h 49-66. *)
Definition empty_or_null (s : text) : bool := forallb (Z.eqb 0) s.

(** ** Protobuf messages as JSON *)
(** m_dynamic_decoder and the keys of m_type_resolver_map; all resolvers look into the pool of the decoder. *)
Record jser := { js_pool : pool; js_known : list dinfo }.
Definition jser_init : jser := {| js_pool := []; js_known := [] |}.
(** CreateTypeResolver 98-128: the pool afterwards, None for an exception.  Whether a message could be made (116) is
    not looked at; NewTypeResolverForDescriptorPool gives a resolver always. *)
Definition create_resolver (p : pool) (i : dinfo) : option pool :=
  if empty_or_null (short_name (fst i)) then None
  else match snd i with
       | [] => None
       | fs => Some (fst (get_message p fs (short_name (fst i))))
       end.
(** GetTypeResolver 88-96. *)
Definition get_resolver (s : jser) (i : dinfo) : option jser :=
  if existsb (eqb i) (js_known s) then Some s
  else match create_resolver (js_pool s) i with
       | Some p => Some {| js_pool := p; js_known := js_known s ++ [i] |}
       | None => None
       end.

Section Json.
  (** BinaryToJsonString for a type that was found; None: the bytes are no message of it. *)
  Variable json : mtype -> list Z -> option text.
  (** Deserialize 64-85: the type is looked up in the pool by its full name (132). *)
  Definition json_deserialize (s : jser) (i : dinfo) (b : list Z) : jser * dout (mtype * text) :=
    match get_resolver s i with
    | None => (s, OReflection)
    | Some s' =>
        (s', match pool_type (js_pool s') (fst i) with
             | Some t => match json t b with Some x => OMessage (t, x) | None => OOther end
             | None => OOther
             end)
    end.
  Definition json_run (hs : list (dinfo * list Z)) : jser := fold_left (fun s h => fst (json_deserialize s (fst h) (snd h))) hs jser_init.
End Json.

(** ** Protobuf messages *)
Section Proto.
  (** What ParseFromArray makes of the bytes, and whether it succeeds. *)
  Variable parse : mtype -> list Z -> text * bool.
  (** ProtobufDynamicDeserializer::Deserialize, dynamic_subscriber.h 54-70; the result of ParseFromArray (63) is not looked at. *)
  Definition proto_deserialize (s : deser) (i : dinfo) (b : list Z) : deser * dout (mtype * text) :=
    match deserialize false s i with
    | (s', DMessage t) => (s', OMessage (t, fst (parse t b)))
    | (s', DException) => (s', OReflection)
    | (s', DCrash) => (s', OOther)
    end.
End Proto.

(** ** Cap'n Proto *)
Record cnode := { cn_id : Z; cn_struct : bool; cn_rest : Z }.
#[export] Instance cnode_eq : EqDec cnode.
Proof. intros a b. repeat decide equality. Defined.
(** Name, encoding and descriptor. *)
Definition cinfo := (text * text * text)%type.
(** The words in m_msg_builder, m_schema_map (None: the schema Schema() makes) and m_loader. *)
Record cser := { cs_words : Z; cs_map : list (cinfo * option cnode); cs_loader : list (Z * cnode) }.
Definition cser_init : cser := {| cs_words := 0; cs_map := []; cs_loader := [] |}.

Section Capnp.
  (** The messages of a descriptor: the id of the type and the nodes; None: not readable. *)
  Variable schema_of : text -> option (Z * list cnode).
  (** SchemaLoader::load of a node (the second) in place of one of the same id: the node kept, None for an exception. *)
  Variable upgrade : cnode -> cnode -> option cnode.
  (** initMessageBuilderFromFlatArrayCopy: the words the message takes; None: not readable. *)
  Variable words_of : list Z -> option Z.

  (** SchemaLoader::load: the loader afterwards and whether there was no exception. *)
  Definition load (l : list (Z * cnode)) (n : cnode) : list (Z * cnode) * bool :=
    match aget (cn_id n) l with
    | None => (aset (cn_id n) n l, true)
    | Some m => if eqb m n then (l, true)
                else match upgrade m n with Some k => (aset (cn_id n) k l, true) | None => (l, false) end
    end.
  Fixpoint load_all (l : list (Z * cnode)) (ns : list cnode) : list (Z * cnode) * bool :=
    match ns with
    | [] => (l, true)
    | n :: ns' => match load l n with (l', true) => load_all l' ns' | (l', false) => (l', false) end
    end.
  (** SchemaFromDescriptor, helper.h 100-121. *)
  Definition schema_from (l : list (Z * cnode)) (d : text) : list (Z * cnode) * option cnode :=
    match schema_of d with
    | None => (l, None)
    | Some (id, ns) => match load_all l ns with
                       | (l', true) => (l', aget id l')
                       | (l', false) => (l', None)
                       end
    end.
  (** GetSchema, capnproto/dynamic.h 68-76: the state, and the schema (None inside: Schema()) unless there was an exception. *)
  Definition get_schema (s : cser) (i : cinfo) : cser * option (option cnode) :=
    match aget i (cs_map s) with
    | Some _ =>
        match schema_from (cs_loader s) (snd i) with
        | (l, Some n) => ({| cs_words := cs_words s; cs_map := aset i (Some n) (cs_map s); cs_loader := l |}, Some (Some n))
        | (l, None) => ({| cs_words := cs_words s; cs_map := cs_map s; cs_loader := l |}, None)
        end
    | None => ({| cs_words := cs_words s; cs_map := aset i None (cs_map s); cs_loader := cs_loader s |}, Some None)
    end.
  (** Deserialize 49-65; asStruct (58) throws for Schema() and for what is no struct.  The builder keeps its memory. *)
  Definition capnp_deserialize (s : cser) (i : cinfo) (b : list Z) : cser * dout (cnode * list Z) :=
    match words_of b with
    | None => (s, OOther)
    | Some w =>
        let (s', r) := get_schema {| cs_words := (cs_words s + w)%Z; cs_map := cs_map s; cs_loader := cs_loader s |} i in
        (s', match r with
             | Some (Some n) => if cn_struct n then OMessage (n, b) else OOther
             | _ => OOther
             end)
    end.
  Definition capnp_run (hs : list (cinfo * list Z)) : cser :=
    fold_left (fun s h => fst (capnp_deserialize s (fst h) (snd h))) hs cser_init.
End Capnp.

(** ** The subscriber around a deserializer *)
(** How the callback of the user ends. *)
Inductive ending := Returns | ThrowsReflection | ThrowsOther.
Section Subscriber.
  Variables (D I M : Type).
  Variable start : D.
  Variable des : D -> I -> list Z -> D * dout M.

  (** m_cb_callback, m_error_callback, m_datatype_info_received, m_deserializer; and whether the process is there: an
      exception that leaves ReceiveCallback meets no handler in the receiving threads, so std::terminate is called. *)
  Record dsub := { ds_cb : bool; ds_err : bool; ds_info : option I; ds_des : D; ds_alive : bool }.
  Definition dsub_init : dsub := {| ds_cb := false; ds_err := false; ds_info := None; ds_des := start; ds_alive := true |}.
  Inductive dact :=
  | AMessage (b : list Z) (known : option I) (e : ending)   (* a message arrives; what GetTopicDataTypeInformation says (None also for an empty one); the callback's end *)
  | AReceive (b : option (list Z)) (known : option I)       (* Receive; what ReceiveBuffer gives *)
  | ACallback (on : bool)                                   (* AddReceiveCallback, RemReceiveCallback *)
  | AError (on : bool).                                     (* AddErrorCallback, RemErrorCallback *)
  Inductive dsaid :=
  | SCalled (m : M)            (* the callback of the user *)
  | SComplaint                 (* the error callback *)
  | STerminated
  | SReceived (m : option M)   (* Receive returns *)
  | SThrown.                   (* Receive leaves by an exception *)

  (** PopulateDatatypeInfo, dynamic.h 291-303. *)
  Definition with_info (s : dsub) (known : option I) : dsub :=
    match ds_info s with
    | Some _ => s
    | None => {| ds_cb := ds_cb s; ds_err := ds_err s; ds_info := known; ds_des := ds_des s; ds_alive := ds_alive s |}
    end.
  Definition with_des (s : dsub) (d : D) : dsub :=
    {| ds_cb := ds_cb s; ds_err := ds_err s; ds_info := ds_info s; ds_des := d; ds_alive := ds_alive s |}.
  Definition dead (s : dsub) : dsub :=
    {| ds_cb := ds_cb s; ds_err := ds_err s; ds_info := ds_info s; ds_des := ds_des s; ds_alive := false |}.
  (** CallErrorCallback, dynamic.h 305-316. *)
  Definition complains (s : dsub) : list dsaid := if ds_err s then [SComplaint] else [].
  (** ReceiveCallback, dynamic.h 261-289. *)
  Definition on_message (s : dsub) (b : list Z) (known : option I) (e : ending) : dsub * list dsaid :=
    if negb (ds_cb s) then (s, [])
    else
      let s1 := with_info s known in
      match ds_info s1 with
      | None => (s1, complains s1)
      | Some i =>
          let (d, o) := des (ds_des s1) i b in
          let s2 := with_des s1 d in
          match o with
          | OMessage m => match e with
                          | Returns => (s2, [SCalled m])
                          | ThrowsReflection => (s2, SCalled m :: complains s2)
                          | ThrowsOther => (dead s2, [SCalled m; STerminated])
                          end
          | OReflection => (s2, complains s2)
          | OOther => (dead s2, [STerminated])
          end
      end.
  (** Receive, dynamic.h 153-178. *)
  Definition on_receive (s : dsub) (b : option (list Z)) (known : option I) : dsub * list dsaid :=
    match b with
    | None => (s, [SReceived None])
    | Some b =>
        let s1 := with_info s known in
        match ds_info s1 with
        | None => (s1, [SReceived None])
        | Some i =>
            let (d, o) := des (ds_des s1) i b in
            (with_des s1 d, [match o with OMessage m => SReceived (Some m) | OReflection => SReceived None | OOther => SThrown end])
        end
    end.
  Definition d_step (s : dsub) (a : dact) : dsub * list dsaid :=
    if ds_alive s then
      match a with
      | AMessage b k e => on_message s b k e
      | AReceive b k => on_receive s b k
      | ACallback on => ({| ds_cb := on; ds_err := ds_err s; ds_info := ds_info s; ds_des := ds_des s; ds_alive := true |}, [])
      | AError on => ({| ds_cb := ds_cb s; ds_err := on; ds_info := ds_info s; ds_des := ds_des s; ds_alive := true |}, [])
      end
    else (s, []).
  Fixpoint d_run (s : dsub) (l : list dact) : dsub * list dsaid :=
    match l with
    | [] => (s, [])
    | a :: l' => let (s1, o) := d_step s a in let (s2, o') := d_run s1 l' in (s2, o ++ o')
    end.
End Subscriber.
Arguments AMessage {I} b known e.
Arguments AReceive {I} b known.
Arguments ACallback {I} on.
Arguments AError {I} on.
Arguments SCalled {M} m.
Arguments SComplaint {M}.
Arguments STerminated {M}.
Arguments SReceived {M} m.
Arguments SThrown {M}.
Arguments ds_cb {D I} d.
Arguments ds_err {D I} d.
Arguments ds_info {D I} d.
Arguments ds_des {D I} d.
Arguments ds_alive {D I} d.
