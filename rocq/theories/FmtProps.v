(** C109: typed messages in other formats, and publishers that hold their message. *)
From Verif Require Import Base Sample MsgModel MsgSpec FmtModel FmtSpec FmtProofs.

(** ** Flatbuffers *)
(** A buffer below 2 GiB sent to subscribers is written as it is, whatever the publisher sent before, and read into a new object as the same
    bytes. *)
Theorem c109_flatbuffers_trip : forall write m buf, (Z.of_nat (length m) < 2 ^ 31)%Z ->
  snd (typed_send (list Z) fb_size fb_serialize true true true write m buf) = ([PWrite m], write m) /\ fb_deserialize [] m = Some m.
Proof. exact fb_trip. Qed.
Print Assumptions c109_flatbuffers_trip.
Example c109_flatbuffers_trip_ex : snd (typed_send (list Z) fb_size fb_serialize true true true (fun p => Z.of_nat (length p)) [4%Z; 5%Z] [1%Z; 2%Z; 3%Z]) = ([PWrite [4%Z; 5%Z]], 2%Z) /\
  fb_deserialize [] [4%Z; 5%Z] = Some [4%Z; 5%Z].
Proof. split; reflexivity. Qed.

(** An object used for several messages has the newest one in front, and behind it as many bytes as all those before together. *)
Theorem c109_flatbuffers_front : forall bs b m, Forall (fun b => (Z.of_nat (length b) < 2 ^ 31)%Z) (bs ++ [b]) ->
  exists old, fb_receive_all m (bs ++ [b]) = Some (b ++ old) /\ length old = length (concat bs) + length m.
Proof. exact fb_front. Qed.
Print Assumptions c109_flatbuffers_front.
Example c109_flatbuffers_front_ex : fb_receive_all [] [[1%Z; 2%Z]; [3%Z]; [4%Z]] = Some [4%Z; 3%Z; 1%Z; 2%Z].
Proof. reflexivity. Qed.

(** Not true: receiving a flatbuffers message into an object that received one before gives that message.  The bytes are put in front of the old
    ones (PushFlatBuffer), so an object used in a loop grows with every message, and sending it on sends all of them. *)
Theorem c109_flatbuffers_reuse_refuted : ~ (forall a b m, fb_deserialize [] a = Some m -> fb_deserialize m b = Some b).
Proof. exact fb_reuse. Qed.
Print Assumptions c109_flatbuffers_reuse_refuted.

(** Not true: every flatbuffers message can be received.  The size is converted to int: from 2 GiB on it is negative and memory outside of
    the buffer is read. *)
Theorem c109_flatbuffers_large_refuted : ~ (forall b, fb_deserialize [] b <> None).
Proof. exact fb_large. Qed.
Print Assumptions c109_flatbuffers_large_refuted.

(** ** Messagepack *)
(** The serializer keeps its promises for any packing. *)
Theorem c109_messagepack : forall M (pack : M -> list Z), honest (mp_size M pack) (mp_serialize M pack) pack.
Proof. exact mp_honest. Qed.
Print Assumptions c109_messagepack.
Example c109_messagepack_ex : mp_serialize nat (fun n => repeat 7%Z n) 3 3 = Some [7%Z; 7%Z; 7%Z].
Proof. reflexivity. Qed.

(** It writes the whole message within the memory given, or nothing. *)
Theorem c109_messagepack_bounds : forall M (pack : M -> list Z) m n b, mp_serialize M pack m n = Some b -> b = pack m /\ length b <= n.
Proof. exact mp_bounds. Qed.
Print Assumptions c109_messagepack_bounds.
Example c109_messagepack_bounds_ex : mp_serialize nat (fun n => repeat 7%Z n) 3 2 = None /\ mp_serialize nat (fun n => repeat 7%Z n) 2 3 = Some [7%Z; 7%Z].
Proof. split; reflexivity. Qed.

(** ** Cap'n Proto payloads *)
(** A payload of whole words writes exactly the announced number of bytes into memory that is large enough, and nothing into smaller memory. *)
Theorem c109_capnp_payload : forall words len, Forall (fun w => length w = 8) words ->
  (cp_size words <= len -> cp_write_full words len = Some (concat words)) /\
  (len < cp_size words -> cp_write_full words len = None) /\ length (concat words) = cp_size words.
Proof. exact cp_full. Qed.
Print Assumptions c109_capnp_payload.
Example c109_capnp_payload_ex : cp_write_full [word_of 1; word_of 2] 16 = Some (word_of 1 ++ word_of 2) /\ cp_write_full [word_of 1; word_of 2] 15 = None.
Proof. split; reflexivity. Qed.

(** ** Cap'n Proto readers *)
(** The reader of the message received last shows that message, whatever was received before; the result says whether bytes follow it. *)
Theorem c109_capnp_newest : forall parse bs b v rest, length b mod 8 = 0 -> parse b = Some (v, rest) ->
  exists s r, cp_deserialize parse (cp_all parse bs) b = (s, Some (r, Nat.eqb rest 0)) /\ cp_read s r = v.
Proof. exact cp_newest. Qed.
Print Assumptions c109_capnp_newest.
Example c109_capnp_newest_ex : snd (cp_deserialize word_parse (cp_all word_parse [word_of 3; word_of 4]) (word_of 5)) = Some (2, true) /\
  cp_read (cp_all word_parse [word_of 3; word_of 4; word_of 5]) 2 = [5%Z].
Proof. split; reflexivity. Qed.

(** With the next message every earlier reader shows the default values, for ever. *)
Theorem c109_capnp_older : forall parse bs b s r f b' v rest cs, cp_deserialize parse (cp_all parse bs) b = (s, Some (r, f)) ->
  length b' mod 8 = 0 -> parse b' = Some (v, rest) -> cp_read (cp_all parse (bs ++ b :: b' :: cs)) r = [].
Proof. exact cp_older. Qed.
Print Assumptions c109_capnp_older.
Example c109_capnp_older_ex : cp_read (cp_all word_parse [word_of 3]) 0 = [3%Z] /\ cp_read (cp_all word_parse [word_of 3; word_of 4; word_of 5]) 0 = [].
Proof. split; reflexivity. Qed.

(** Not true: a Cap'n Proto message that was received keeps its contents until the user drops it.  What Receive and the callback give is a reader into
    the one message builder of the subscriber; the next message clears it. *)
Theorem c109_capnp_kept_refuted : ~ (forall parse bs b s r f b', cp_deserialize parse (cp_all parse bs) b = (s, Some (r, f)) ->
  cp_read (cp_all parse (bs ++ [b; b'])) r = cp_read s r).
Proof. exact cp_kept_refuted_lemma. Qed.
Print Assumptions c109_capnp_kept_refuted.

(** Up to seven bytes behind whole words are not seen. *)
Theorem c109_capnp_cut : forall parse s b extra, length b mod 8 = 0 -> length extra < 8 -> cp_deserialize parse s (b ++ extra) = cp_deserialize parse s b.
Proof. exact cp_cut. Qed.
Print Assumptions c109_capnp_cut.
Example c109_capnp_cut_ex : snd (cp_deserialize word_parse cread_init (word_of 5 ++ [1%Z; 2%Z])) = Some (0, true).
Proof. reflexivity. Qed.

(** Not true: bytes that are accepted as a Cap'n Proto message are whole words.  The size is divided by eight, the remainder is not looked at. *)
Theorem c109_capnp_length_refuted : ~ (forall parse s b r, snd (cp_deserialize parse s b) = Some (r, true) -> length b mod 8 = 0).
Proof. exact cp_length_refuted_lemma. Qed.
Print Assumptions c109_capnp_length_refuted.

(** ** Publishers that hold their message *)
(** In programs that use only publishers that have a message, every Send sends the value written last into the message of the publisher to the
    topic it was made for, announced with the type of that message, also after moves and assignments and when publishers share a message. *)
Theorem c109_hold_partial : forall generated l, sane generated hw_init l = true ->
  snd (h_run generated hs_init l) = snd (hw_run generated hw_init l).
Proof. exact hold_lemma. Qed.
Print Assumptions c109_hold_partial.
Example c109_hold_partial_ex : sane gen_p hw_init mixed_program = true /\ snd (h_run gen_p hs_init mixed_program) =
  [HAnnounce tT tU; HDone; HDone; HAnnounce tU tP; HAnnounce tT tP; HDone; HSent tU [7%Z]; HSent tT [7%Z]; HSent tT [5%Z];
   HDone; HSent tT [5%Z]; HDone; HSent tT [8%Z]; HAnnounce tP tP; HThrow; HSent tP []; HDone; HSent tU [7%Z]; HDone; HSent tT [9%Z];
   HDone; HDone].
Proof. split; vm_compute; reflexivity. Qed.

(** No such program uses memory that is gone or a null pointer. *)
Theorem c109_hold_safe : forall generated l, sane generated hw_init l = true ->
  ~ In HUb (snd (h_run generated hs_init l)) /\ ~ In HNoProgram (snd (h_run generated hs_init l)).
Proof. exact safe_lemma. Qed.
Print Assumptions c109_hold_safe.
Example c109_hold_safe_ex : sane gen_p hw_init [HCapnp 1 tT tU; HMove 1 2; HDelete 1; HSend 2] = true.
Proof. reflexivity. Qed.

(** A publisher without a message (moved from, or made with a null pointer) must not be told to send: the pointer is followed without a test. *)
Theorem c109_hold_empty : forall generated l k, sane generated hw_init l = true -> amem k (hw_pubs (fst (hw_run generated hw_init l))) = true ->
  hw_holds k (fst (hw_run generated hw_init l)) = None -> skipn (length l) (snd (h_run generated hs_init (l ++ [HSend k]))) = [HUb].
Proof. exact empty_send. Qed.
Print Assumptions c109_hold_empty.
Example c109_hold_empty_ex : skipn 2 (snd (h_run gen_p hs_init [HName 1 tT tP; HMove 1 2; HSend 1])) = [HUb].
Proof. reflexivity. Qed.

(** Not true: a dynamic publisher that was made without a message refuses to send.  The missing message is tolerated when the topic is announced
    (with an empty type) and not when it is sent: a null pointer is followed. *)
Theorem c109_null_refuted : ~ (forall generated k t, In (HAnnounce t []) (snd (h_run generated hs_init [HDyn k t None; HSend k])) ->
  ~ In HUb (snd (h_run generated hs_init [HDyn k t None; HSend k]))).
Proof. exact null_refuted_lemma. Qed.
Print Assumptions c109_null_refuted.

(** Every Cap'n Proto publisher that was moved still edits the message of the one it was moved to, and memory that is gone once that one is deleted. *)
Theorem c109_moved_builder : forall generated l a b t m v, sane generated hw_init l = true ->
  aget a (hw_pubs (fst (hw_run generated hw_init l))) = Some (false, HasTopic t (Some m)) -> amem b (hw_pubs (fst (hw_run generated hw_init l))) = false ->
  skipn (length l) (snd (h_run generated hs_init (l ++ [HMove a b; HEdit a v; HSend b; HDelete b; HEdit a v]))) = [HDone; HDone; HSent t v; HDone; HUb].
Proof. exact alias_lemma. Qed.
Print Assumptions c109_moved_builder.
Example c109_moved_builder_ex : snd (h_run gen_p hs_init [HCapnp 1 tT tU; HMove 1 2; HEdit 1 [6%Z]; HSend 2; HDelete 2; HEdit 1 [6%Z]]) =
  [HAnnounce tT tU; HDone; HDone; HSent tT [6%Z]; HDone; HUb].
Proof. reflexivity. Qed.

(** Not true: a Cap'n Proto publisher that was moved from cannot change what the new one sends.  The move is generated by the compiler; the root builder
    is copied and still points into the message. *)
Theorem c109_moved_builder_refuted : ~ (forall generated l a b v, ~ In HNoProgram (snd (h_run generated hs_init (l ++ [HMove a b; HEdit a v; HSend b]))) ->
  last (snd (h_run generated hs_init (l ++ [HMove a b; HEdit a v; HSend b]))) HUb = last (snd (h_run generated hs_init (l ++ [HMove a b; HSend b]))) HUb).
Proof. exact moved_refuted_lemma. Qed.
Print Assumptions c109_moved_builder_refuted.
