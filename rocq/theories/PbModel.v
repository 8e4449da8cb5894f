(** The wire format of all serialized messages: nanopb as used by eCAL,
    ecal/core/src/serialization/nanopb/nanopb/pb_encode.c, pb_decode.c, pb_common.c
    (without PB_ENABLE_MALLOC, PB_BUFFER_ONLY, PB_VALIDATE_UTF8), and the callbacks of
    ecal_serialize_common.cpp.

    A message descriptor lists field numbers and types as the FIELDLIST macros of the
    *.pb.h files do.  A C struct of a message is a list of field values in that order.
    Only the field types that occur in the eCAL messages are modelled (no static arrays,
    oneof, extension, required, fixed or sint fields).

    Simplified: the encoder runs twice, first to get the size and then to write into a
    buffer of that size; the model computes the bytes once. *)
From Verif Require Import Base.

Definition len (l : list Z) : Z := Z.of_nat (length l).

(** ** Outcomes *)
(** [Fault] is an access outside the buffer (or a loop that does not end). *)
Inductive res (A : Type) := Ok (a : A) | Fail | Fault.
Arguments Ok {A}. Arguments Fail {A}. Arguments Fault {A}.
Definition bind {A B} (x : res A) (f : A -> res B) : res B :=
  match x with Ok a => f a | Fail => Fail | Fault => Fault end.
Notation "'do' p <- x ; y" := (bind x (fun p => y)) (at level 200, p pattern, x at level 100, y at level 200).

(** ** Descriptors and values *)
Inductive ftype :=
| FI64 | FI32             (* STATIC SINGULAR INT64, INT32 *)
| FU32                    (* STATIC SINGULAR UINT32 and UENUM: PB_LTYPE_UVARINT of 4 bytes *)
| FBool                   (* STATIC SINGULAR BOOL *)
| FMsg (d : list (Z * ftype))   (* STATIC OPTIONAL MESSAGE *)
| FCallStr                (* CALLBACK STRING or BYTES, SINGULAR or REPEATED *)
| FCallMsg (d : list (Z * ftype)). (* CALLBACK REPEATED MESSAGE *)
Notation desc := (list (Z * ftype)).

(** [VNull]: a pb_callback_t without function.  [VStr s]: one whose function reads or
    writes the string or byte vector [s] (encode_string_field, encode_bytes_field_nano_bytes,
    encode_bytes_field_vec, decode_string_field, decode_bytes_field, ecal_serialize_common.cpp
    39-139).  [VStrs l]: encode/decode_string_list_field 205-244.  [VMsgs t l]: a callback
    that encodes every element of [l], or decodes into a fresh struct [t] and appends it. *)
Inductive fval :=
| VInt (z : Z)
| VMsg (has : bool) (m : list fval)
| VNull
| VStr (s : list Z)
| VStrs (l : list (list Z))
| VMsgs (t : list fval) (l : list (list fval)).

(** ** Encoding, pb_encode.c *)
(** pb_encode_varint_32, 572-604: [low] and [high] are 32 bit halves. *)
Fixpoint enc_low (n : nat) (byte low high : Z) : list Z * Z :=
  match n with
  | O => ([], byte)
  | S n' =>
      if (Z.eqb low 0 && Z.eqb high 0)%bool then ([], byte)
      else let (bs, b) := enc_low n' (low mod 128)%Z (low / 128)%Z high in ((byte + 128)%Z :: bs, b)
  end.
Fixpoint enc_high (n : nat) (byte high : Z) : list Z :=
  match n with
  | O => [byte]
  | S n' => if Z.eqb high 0 then [byte] else (byte + 128)%Z :: enc_high n' (high mod 128)%Z (high / 128)%Z
  end.
Definition enc_varint_32 (low high : Z) : list Z :=
  let (bs, byte) := enc_low 4 (low mod 128)%Z (low / 128)%Z high in
  bs ++ (if Z.eqb high 0 then [byte] else enc_high 5 (byte + (high mod 8) * 16)%Z (high / 8)%Z).
(** pb_encode_varint 606-622. *)
Definition enc_varint (v : Z) : list Z :=
  if (v <=? 127)%Z then [v] else enc_varint_32 (v mod 2 ^ 32)%Z (v / 2 ^ 32)%Z.

Definition wt_varint : Z := 0.
Definition wt_64 : Z := 1.
Definition wt_string : Z := 2.
Definition wt_32 : Z := 5.
(** pb_encode_tag 674-678. *)
Definition enc_tag (wt tag : Z) : list Z := enc_varint (tag * 8 + wt)%Z.
(** pb_encode_string 715-721; the same shape is written by pb_encode_submessage 723-771. *)
Definition enc_string (s : list Z) : list Z := enc_varint (len s) ++ s.
Definition u64 (z : Z) : Z := (z mod 2 ^ 64)%Z.

(** encode_field 417-468, pb_check_proto3_default_value 243-357, encode_basic_field
    318-358, encode_callback_field, pb_enc_varint, pb_enc_bool, pb_encode 510-531.  A value
    of the wrong shape does not occur. *)
Fixpoint enc_field (tag : Z) (ty : ftype) (v : fval) {struct ty} : list Z :=
  let enc_msg := fix enc_msg (d : desc) (m : list fval) {struct d} : list Z :=
    match d, m with
    | (t, f) :: d', x :: m' => enc_field t f x ++ enc_msg d' m'
    | _, _ => []
    end in
  match ty, v with
  | FI64, VInt z | FI32, VInt z => if Z.eqb z 0 then [] else enc_tag wt_varint tag ++ enc_varint (u64 z)
  | FU32, VInt z => if Z.eqb z 0 then [] else enc_tag wt_varint tag ++ enc_varint z
  | FBool, VInt z => if Z.eqb z 0 then [] else enc_tag wt_varint tag ++ enc_varint 1
  | FMsg d, VMsg true m => enc_tag wt_string tag ++ enc_string (enc_msg d m)
  | FCallStr, VStr s => enc_tag wt_string tag ++ enc_string s
  | FCallStr, VStrs l => flat_map (fun s => enc_tag wt_string tag ++ enc_string s) l
  | FCallMsg d, VMsgs _ l => flat_map (fun m => enc_tag wt_string tag ++ enc_string (enc_msg d m)) l
  | _, _ => []
  end.
Fixpoint enc_msg (d : desc) (m : list fval) {struct d} : list Z :=
  match d, m with
  | (t, f) :: d', x :: m' => enc_field t f x ++ enc_msg d' m'
  | _, _ => []
  end.

(** ** Decoding, pb_decode.c *)
(** pb_istream_t: [s_rest] is what lies in memory from the read position to the end of the
    buffer handed in, [s_left] is bytes_left. *)
Record stream := Stream { s_rest : list Z; s_left : Z }.

(** pb_read 81-120 (buf_read 68-79). *)
Definition rd (n : Z) (s : stream) : res (list Z * stream) :=
  if Z.eqb n 0 then Ok ([], s)
  else if (s_left s <? n)%Z then Fail
  else if (len (s_rest s) <? n)%Z then Fault
  else Ok (firstn (Z.to_nat n) (s_rest s), Stream (skipn (Z.to_nat n) (s_rest s)) (s_left s - n)).
(** pb_readbyte 124-140; a byte is a number modulo 256. *)
Definition rd1 (s : stream) : res (Z * stream) :=
  if Z.eqb (s_left s) 0 then Fail
  else match s_rest s with [] => Fault | b :: r => Ok ((b mod 256)%Z, Stream r (s_left s - 1)) end.
Definition cont (b : Z) : bool := (128 <=? b)%Z.

(** pb_decode_varint32_eof 170-234.  [n] bounds the number of bytes (bitpos >= 64 is an
    error), [bitpos] and [result] as in the code. *)
Fixpoint varint32_go (n : nat) (bitpos result : Z) (s : stream) : res (Z * stream) :=
  match n with
  | O => Fault
  | S n' =>
      do (b, s1) <- rd1 s;
      do result' <-
        (if (32 <=? bitpos)%Z then
           let sign_extension := if (bitpos <? 63)%Z then 255%Z else 1%Z in
           let valid := (Z.eqb (b mod 128) 0 || ((2 ^ 31 <=? result)%Z && Z.eqb b sign_extension))%bool in
           if ((64 <=? bitpos)%Z || negb valid)%bool then Fail else Ok result
         else if Z.eqb bitpos 28 then
           (* bits 4-6 of the byte must be clear, or bits 3-6 set *)
           if (negb (Z.eqb (b mod 128 / 16) 0) && negb (Z.eqb (b mod 128 / 8) 15))%bool then Fail
           else Ok (result + b mod 16 * 2 ^ bitpos)%Z
         else Ok (result + b mod 128 * 2 ^ bitpos)%Z);
      if cont b then varint32_go n' (bitpos + 7) result' s1 else Ok (result', s1)
  end.
Definition dec_varint32 (s : stream) : res (Z * stream) :=
  do (b, s1) <- rd1 s;
  if cont b then varint32_go 10 7 (b mod 128) s1 else Ok (b, s1).
(** pb_decode_varint 242-262. *)
Fixpoint varint_go (n : nat) (bitpos result : Z) (s : stream) : res (Z * stream) :=
  match n with
  | O => Fault
  | S n' =>
      do (b, s1) <- rd1 s;
      if ((63 <=? bitpos)%Z && negb (Z.eqb (b / 2) 0))%bool then Fail
      else
        let result' := (result + b mod 128 * 2 ^ bitpos)%Z in
        if cont b then varint_go n' (bitpos + 7) result' s1 else Ok (result', s1)
  end.
Definition dec_varint (s : stream) : res (Z * stream) := varint_go 10 0 0 s.

(** pb_decode_tag 290-305. *)
Definition dec_tag (s : stream) : res (Z * Z * stream) :=
  do (t, s1) <- dec_varint32 s; Ok ((t / 8)%Z, (t mod 8)%Z, s1).
(** pb_skip_varint 265-274: the loop of the code, with the remaining bytes as a bound. *)
Fixpoint skip_varint_go (n : nat) (s : stream) : res stream :=
  match n with
  | O => Fault
  | S n' => do (bs, s1) <- rd 1 s; if cont (hd 0%Z bs) then skip_varint_go n' s1 else Ok s1
  end.
Definition skip_varint (s : stream) : res stream := skip_varint_go (S (length (s_rest s))) s.
(** pb_skip_field 307-317, pb_skip_string 276-288. *)
Definition skip_field (wt : Z) (s : stream) : res stream :=
  if Z.eqb wt wt_varint then skip_varint s
  else if Z.eqb wt wt_64 then do (_, s1) <- rd 8 s; Ok s1
  else if Z.eqb wt wt_string then do (n, s1) <- dec_varint32 s; do (_, s2) <- rd n s1; Ok s2
  else if Z.eqb wt wt_32 then do (_, s1) <- rd 4 s; Ok s1
  else Fail.
(** read_raw_value 322-356, buffer of 10 bytes. *)
Fixpoint raw_varint_go (n : nat) (s : stream) : res (list Z * stream) :=
  match n with
  | O => Fail
  | S n' =>
      do (bs, s1) <- rd 1 s;
      if cont (hd 0%Z bs) then do (rest, s2) <- raw_varint_go n' s1; Ok (bs ++ rest, s2) else Ok (bs, s1)
  end.
Definition raw_value (wt : Z) (s : stream) : res (list Z * stream) :=
  if Z.eqb wt wt_varint then raw_varint_go 10 s
  else if Z.eqb wt wt_64 then rd 8 s
  else if Z.eqb wt wt_32 then rd 4 s
  else Fail.
(** pb_make_string_substream 361-374: substream and what is left of the parent. *)
Definition substream (s : stream) : res (stream * Z) :=
  do (n, s1) <- dec_varint32 s;
  if (s_left s1 <? n)%Z then Fail else Ok (Stream (s_rest s1) n, (s_left s1 - n)%Z).
(** pb_close_string_substream 376-389. *)
Definition close_sub (sub : stream) (parent_left : Z) : res stream :=
  do (_, sub') <- rd (s_left sub) sub; Ok (Stream (s_rest sub') parent_left).

(** pb_dec_varint 1424-1494: signed fields of 32 bits are cast to int32_t first. *)
Definition to_i64 (z : Z) : Z := if (z <? 2 ^ 63)%Z then z else (z - 2 ^ 64)%Z.
Definition to_i32 (z : Z) : Z := let w := (z mod 2 ^ 32)%Z in if (w <? 2 ^ 31)%Z then w else (w - 2 ^ 32)%Z.

Definition set_nth {A} (i : nat) (x : A) (l : list A) : list A := firstn i l ++ x :: skipn (S i) l.
(** pb_field_iter_find: position, type and value of the field with this number. *)
Fixpoint find_field (tag : Z) (d : desc) (m : list fval) : option (nat * ftype * fval) :=
  match d, m with
  | (t, f) :: d', x :: m' =>
      if Z.eqb t tag then Some (O, f, x)
      else match find_field tag d' m' with Some (i, f', x') => Some (S i, f', x') | None => None end
  | _, _ => None
  end.

(** pb_message_set_to_defaults 950-983, pb_field_set_to_default 868-948: numbers to zero,
    has_ flags to false, callbacks stay. *)
Fixpoint defaults (v : fval) : fval :=
  match v with
  | VInt _ => VInt 0
  | VMsg _ m => VMsg false (map defaults m)
  | _ => v
  end.

(** What a callback does with the stream it is given; [dec] decodes a message. *)
Definition callback (dec : desc -> list fval -> stream -> res (list fval * stream)) (ty : ftype) (v : fval) (s : stream)
  : res (fval * stream) :=
  match v with
  | VStr _ => do (bs, s1) <- rd (s_left s) s; Ok (VStr bs, s1)
  | VStrs l => do (bs, s1) <- rd (s_left s) s; Ok (VStrs (l ++ [bs]), s1)
  | VMsgs t l =>
      match ty with
      | FCallMsg d => do (m, s1) <- dec d (map defaults t) s; Ok (VMsgs t (l ++ [m]), s1)
      | _ => Ok (v, s)
      end
  | _ => Ok (v, s)   (* pb_default_field_callback without function *)
  end.

(** decode_field: decode_basic_field 395-464, decode_static_field 465-546 (OPTIONAL),
    decode_callback_field 751-795, pb_dec_submessage 1586-1636.  Both kinds of callback
    consume their stream, so the loop of decode_callback_field runs once. *)
Definition dec_field (dec : desc -> list fval -> stream -> res (list fval * stream)) (ty : ftype) (v : fval) (wt : Z) (s : stream)
  : res (fval * stream) :=
  match ty with
  | FI64 => if negb (Z.eqb wt wt_varint) then Fail else do (z, s1) <- dec_varint s; Ok (VInt (to_i64 z), s1)
  | FI32 => if negb (Z.eqb wt wt_varint) then Fail else do (z, s1) <- dec_varint s; Ok (VInt (to_i32 z), s1)
  | FU32 => if negb (Z.eqb wt wt_varint) then Fail
            else do (z, s1) <- dec_varint s; if (2 ^ 32 <=? z)%Z then Fail else Ok (VInt z, s1)
  | FBool => if negb (Z.eqb wt wt_varint) then Fail
             else do (z, s1) <- dec_varint32 s; Ok (VInt (if Z.eqb z 0 then 0 else 1), s1)
  | FMsg d =>
      if negb (Z.eqb wt wt_string) then Fail
      else
        match v with
        | VMsg _ m =>
            do (sub, pl) <- substream s;
            do (m', sub') <- dec d m sub;
            do s1 <- close_sub sub' pl;
            Ok (VMsg true m', s1)
        | _ => Fail
        end
  | FCallStr | FCallMsg _ =>
      if Z.eqb wt wt_string then
        do (sub, pl) <- substream s;
        do (v', sub') <- callback dec ty v sub;
        do s1 <- close_sub sub' pl;
        Ok (v', s1)
      else
        do (bs, s1) <- raw_value wt s;
        do (v', _) <- callback dec ty v (Stream bs (len bs));
        Ok (v', s1)
  end.

(** pb_decode_inner 989-1151 (after the defaults): the loop over the fields. *)
Fixpoint dec_inner (fuel : nat) (d : desc) (m : list fval) (s : stream) : res (list fval * stream) :=
  if Z.eqb (s_left s) 0 then Ok (m, s)
  else
    match fuel with
    | O => Fault
    | S f =>
        do (tag, wt, s1) <- dec_tag s;
        if Z.eqb tag 0 then Fail
        else
          match find_field tag d m with
          | None => do s2 <- skip_field wt s1; dec_inner f d m s2
          | Some (i, ty, v) =>
              do (v', s2) <- dec_field (dec_inner f) ty v wt s1;
              dec_inner f d (set_nth i v' m) s2
          end
    end.

(** pb_istream_from_buffer and pb_decode 1181-1193 of a whole buffer. *)
Definition pb_decode (d : desc) (tmpl : list fval) (bs : list Z) : res (list fval) :=
  do (m, _) <- dec_inner (S (length bs)) d (map defaults tmpl) (Stream bs (len bs)); Ok m.
