(** Protocol buffer wire format, stated as a grammar: independent of how nanopb computes it. *)
From Verif Require Import Base PbModel.

(** Base 128, least significant group first, as short as possible. *)
Inductive varint : Z -> list Z -> Prop :=
| vi_last b : (0 <= b < 128)%Z -> varint b [b]
| vi_more b v bs : (0 <= b < 128)%Z -> (0 < v)%Z -> varint v bs -> varint (b + 128 * v)%Z ((b + 128)%Z :: bs).

(** A number or a piece of bytes under a field number. *)
Inductive wfield := WNum (tag z : Z) | WBytes (tag : Z) (bs : list Z).
Inductive wire : list wfield -> list Z -> Prop :=
| w_nil : wire [] []
| w_num tag z fs tb vb bs :
    varint (tag * 8)%Z tb -> varint z vb -> wire fs bs -> wire (WNum tag z :: fs) (tb ++ vb ++ bs)
| w_bytes tag b fs tb lb bs :
    varint (tag * 8 + 2)%Z tb -> varint (Z.of_nat (length b)) lb -> wire fs bs ->
    wire (WBytes tag b :: fs) (tb ++ lb ++ b ++ bs).

(** Numbers and strings that are left out when they have their default value. *)
Definition wnum (tag z : Z) : list wfield :=
  if Z.eqb z 0 then [] else [WNum tag (z mod 2 ^ 64)%Z].
Definition wstr (tag : Z) (s : list Z) : list wfield :=
  match s with [] => [] | _ => [WBytes tag s] end.

Definition i32 (z : Z) : Prop := (- 2 ^ 31 <= z < 2 ^ 31)%Z.
Definition i64 (z : Z) : Prop := (- 2 ^ 63 <= z < 2 ^ 63)%Z.
Definition u32 (z : Z) : Prop := (0 <= z < 2 ^ 32)%Z.

(** ** A message of a later version of the protocol *)
(** A field whose number is not in the descriptor [D]; any of the four wire types. *)
Inductive unknown (D : desc) : list Z -> Prop :=
| un_num tag z tb vb : ~ In tag (map fst D) -> (0 < tag < 2 ^ 29)%Z ->
    varint (tag * 8)%Z tb -> varint z vb -> unknown D (tb ++ vb)
| un_64 tag tb b : ~ In tag (map fst D) -> (0 < tag < 2 ^ 29)%Z ->
    varint (tag * 8 + 1)%Z tb -> length b = 8%nat -> unknown D (tb ++ b)
| un_bytes tag b tb lb : ~ In tag (map fst D) -> (0 < tag < 2 ^ 29)%Z ->
    varint (tag * 8 + 2)%Z tb -> varint (Z.of_nat (length b)) lb -> unknown D (tb ++ lb ++ b)
| un_32 tag tb b : ~ In tag (map fst D) -> (0 < tag < 2 ^ 29)%Z ->
    varint (tag * 8 + 5)%Z tb -> length b = 4%nat -> unknown D (tb ++ b).
(** [ext_field tag ty v bs]: the bytes [bs] transmit the value [v] of a field;
    [ext_msg D d v bs]: the bytes transmit the fields [d] of a message with descriptor [D];
    between fields there may be unknown ones, at every level. *)
Inductive ext_field : Z -> ftype -> fval -> list Z -> Prop :=
| xf_num tag ty z bs : In ty [FI32; FI64; FU32; FBool] -> wire (wnum tag z) bs -> ext_field tag ty (VInt z) bs
| xf_null tag ty : ext_field tag ty VNull []
| xf_str tag s bs : wire [WBytes tag s] bs -> ext_field tag FCallStr (VStr s) bs
| xf_strs tag l bs : wire (map (WBytes tag) l) bs -> ext_field tag FCallStr (VStrs l) bs
| xf_none tag d m : ext_field tag (FMsg d) (VMsg false m) []
| xf_msg tag d m b bs : ext_msg d d m b -> wire [WBytes tag b] bs -> ext_field tag (FMsg d) (VMsg true m) bs
| xf_msgs_nil tag d e : ext_field tag (FCallMsg d) (VMsgs e []) []
| xf_msgs tag d e m l b bs bs' : ext_msg d d m b -> wire [WBytes tag b] bs -> ext_field tag (FCallMsg d) (VMsgs e l) bs' ->
    ext_field tag (FCallMsg d) (VMsgs e (m :: l)) (bs ++ bs')
with ext_msg : desc -> desc -> list fval -> list Z -> Prop :=
| xm_nil D : ext_msg D [] [] []
| xm_field D k f d x m bs bs' : ext_field k f x bs -> ext_msg D d m bs' -> ext_msg D ((k, f) :: d) (x :: m) (bs ++ bs')
| xm_unknown D d m u bs : unknown D u -> ext_msg D d m bs -> ext_msg D d m (u ++ bs).
