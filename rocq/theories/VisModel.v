(** Model of the protobuf decoder, which walks through a message and calls a visitor:
    ecal/msg/protobuf/src/ecal_proto_decoder.cpp, include/ecal/msg/protobuf/ecal_proto_visitor.h and
    src/ecal_proto_maximum_array_dimensions.cpp.

    A message is given by what the reflection interface of the protobuf library says about it: its type, and for
    each field of the descriptor, in the order of declaration, name, number, type name and contents.
    Simplified: the visitor's AcceptMessage depends on the name only and its other functions do not change the
    message; GetReflection does not give a null pointer (43). *)
From Verif Require Import Base Sample MonModel.

(** A scalar value: an integral one is its C++ type and its number or bits. *)
Inductive vscalar :=
  | VIntegral (cpp : Z) (v : Z)
  | VEnum (n : Z) (name : text)
  | VString (s : text)
  | VBytes (s : text).
(** The contents of a field: a scalar (with what HasField or the comparison with the default says), a repeated
    scalar, a message (None: not set), a repeated message. *)
Inductive vbody (M : Type) :=
  | VOne (set : bool) (v : vscalar)
  | VMany (vs : list vscalar)
  | VSub (m : option M)
  | VSubs (ms : list M).
Arguments VOne {M}. Arguments VMany {M}. Arguments VSub {M}. Arguments VSubs {M}.
Inductive vmsg := VMsg (ty : text) (fs : list (text * Z * text * vbody vmsg)).
Definition vfield := (text * Z * text * vbody vmsg)%type.

(** ListFields(msg).size() > 0 (271-273, 285-287). *)
Definition body_listed (b : vbody vmsg) : bool :=
  match b with
  | VOne s _ => s
  | VMany vs => match vs with [] => false | _ => true end
  | VSub m => match m with None => false | Some _ => true end
  | VSubs ms => match ms with [] => false | _ => true end
  end.
Definition listed (m : vmsg) : bool := match m with VMsg _ fs => existsb (fun f => body_listed (snd f)) fs end.

(** The calls of the visitor. *)
Inductive vevent :=
  | VStart (array : bool) (name group : text) (id : Z) (ty : text) (fields : list text)   (* ScalarMessageStart, ArrayMessageStart *)
  | VEnd (array : bool)                                                                   (* ScalarMessageEnd, ArrayMessageEnd *)
  | VArray (name group : text) (id : Z) (ty : text) (size : Z)                            (* ArrayStart *)
  | VArrayEnd
  | VScalar (name group : text) (id : Z) (ty : text) (v : vscalar)                        (* ScalarValue... *)
  | VElement (name group : text) (id : Z) (ty : text) (v : vscalar).                      (* ArrayValue... *)

(** CreateCompleteMessageName (ecal_proto_hlp.h 44-54). *)
Definition full_name (name prefix : text) : text :=
  match prefix with [] => name | _ => prefix ++ [46%Z] ++ name end.
(** name << "[" << i << "]" *)
Definition with_index (name : text) (i : Z) : text := name ++ [91%Z] ++ int_text i ++ [93%Z].

(** The loops over a repeated scalar (82-94 and so on). *)
Fixpoint elements (ok : Z -> bool) (n g ty : text) (i : Z) (vs : list vscalar) : list vevent :=
  match vs with
  | [] => []
  | v :: vs' => (if ok i then [VElement n g i ty v] else []) ++ elements ok n g ty (i + 1)%Z vs'
  end.

Definition vname (f : vfield) : text := fst (fst (fst f)).

(** ProcProtoMsg 40-313. *)
Fixpoint visit (acc : text -> bool) (name prefix : text) (array : bool) (id : Z) (m : vmsg) {struct m} : list vevent :=
  match m with
  | VMsg ty fs =>
      let full := full_name name prefix in
      VStart array name prefix id ty (map vname fs) ::
      flat_map (fun f =>
        match f with
        | (n, num, fty, b) =>
            let child := full_name n full in
            if acc child then
              match b with
              | VOne _ v => [VScalar n full num fty v]
              | VMany vs =>
                  VArray n full num fty (Z.of_nat (length vs)) ::
                  elements (fun i => acc (child ++ str "[*]") || acc (with_index child i))%bool n full fty 0 vs ++ [VArrayEnd]
              | VSub None => []
              | VSub (Some m') => if listed m' then visit acc n full false num m' else []
              | VSubs ms =>
                  VArray n full num fty (Z.of_nat (length ms)) ::
                  (fix go (i : Z) (ms : list vmsg) : list vevent :=
                     match ms with
                     | [] => []
                     | m' :: ms' =>
                         (if (acc (child ++ str "[*]") || acc (with_index child i))%bool && listed m'
                          then visit acc (with_index n i) full true i m' else []) ++ go (i + 1)%Z ms'
                     end) 0%Z ms ++ [VArrayEnd]
              end
            else []
        end) fs ++ [VEnd array]
  end.

(** MaximumArrayDimensionsVisitor::ArrayStart and MaxSize; AcceptMessage is the inherited one, which accepts all. *)
Definition dims_step (d : list (text * Z)) (e : vevent) : list (text * Z) :=
  match e with
  | VArray n g _ _ size =>
      let c := full_name n g in
      let old := match aget c d with Some x => x | None => 0%Z end in
      aset c (if (old <? size)%Z then size else old) d
  | _ => d
  end.
Definition dims_visit (d : list (text * Z)) (name : text) (m : vmsg) : list (text * Z) :=
  fold_left dims_step (visit (fun _ => true) name [] false 0 m) d.
Definition max_size (d : list (text * Z)) (e : text) : Z := match aget e d with Some x => x | None => 0%Z end.
