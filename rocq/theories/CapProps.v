(** C88-C91: the C interface. *)
From Verif Require Import Base Sample RdModel CapModel CapSpec CapProofs.

(** C88: copying into the memory of the caller. *)

(** A text of less than 2 GiB copied into a buffer with an announced length: either all of it arrives and the rest of
    the memory stays as it was, or nothing changes and the result is 0. *)
Theorem c88_buffer : forall ms t tlen src h cs, content t h = Some cs -> tlen <> 0%Z -> (tlen <= Z.of_nat (length cs))%Z ->
  (size src < two_gib)%Z ->
  (src <> [] /\ (size src <= tlen)%Z /\ exists h', copy_buffer ms (Some t) tlen src h = CRet h' (size src) /\
     content t h' = Some (over (bytes src) cs) /\ same_except [t] h h') \/
  ((src = [] \/ (tlen < size src)%Z) /\ copy_buffer ms (Some t) tlen src h = CRet h 0).
Proof. exact buffer_lemma. Qed.
Print Assumptions c88_buffer.
Example c88_buffer_ex : content 1 heap2 = Some [Raw; Raw; Raw] /\
  (exists h', copy_buffer [] (Some 1) 3 [5%Z; 6%Z] heap2 = CRet h' 2 /\ content 1 h' = Some [Byte 5; Byte 6; Raw]) /\
  copy_buffer [] (Some 1) 3 [5%Z; 6%Z; 7%Z; 8%Z] heap2 = CRet heap2 0.
Proof. split; [reflexivity|]. split; [|reflexivity]. eexists. split; reflexivity. Qed.

(** Letting the library allocate: the text is in a block that did not exist before, the caller gets its
    address, and nothing else changes. *)
Theorem c88_alloc : forall ms t src h cs, numbered h -> content t h = Some cs -> 8 <= length cs ->
  src <> [] -> (size src < two_gib)%Z ->
  exists h' b, copy_buffer (true :: ms) (Some t) 0 src h = CRet h' (size src) /\
    content b h = None /\ content b h' = Some (bytes src) /\
    content t h' = Some (over (pointer b) cs) /\ same_except [t; b] h h'.
Proof. exact alloc_lemma. Qed.
Print Assumptions c88_alloc.
Example c88_alloc_ex : exists h', copy_buffer [true] (Some 0) 0 [5%Z; 6%Z] heap2 = CRet h' 2 /\
  content 2 h' = Some [Byte 5; Byte 6] /\ content 0 h' = Some (pointer 2 ++ [Raw; Raw; Raw; Raw]) /\ content 1 h' = content 1 heap2.
Proof. eexists. repeat split; reflexivity. Qed.

(** After the caller has freed that block only the stored address is left of the call. *)
Theorem c88_freed : forall ms t src h h' cs, numbered h -> content t h = Some cs -> 8 <= length cs ->
  src <> [] -> (size src < two_gib)%Z ->
  copy_buffer (true :: ms) (Some t) 0 src h = CRet h' (size src) ->
  exists b, content t h' = Some (over (pointer b) cs) /\ same_except [t] h (cp_free b h').
Proof. exact free_lemma. Qed.
Print Assumptions c88_freed.
Example c88_freed_ex : exists h', copy_buffer [true] (Some 0) 0 [5%Z] heap2 = CRet h' 1 /\ content 2 h' <> None /\
  content 2 (cp_free 2 h') = None.
Proof. eexists. split; [reflexivity|]. split; [discriminate|reflexivity]. Qed.

(** Without memory, without target or without text the result is 0 and nothing happens. *)
Theorem c88_nothing : forall ms t tlen src h,
  copy_buffer (false :: ms) t 0 src h = CRet h 0 /\ copy_buffer ms None tlen src h = CRet h 0 /\
  copy_buffer ms t tlen [] h = CRet h 0.
Proof. exact (fun ms t tlen src h => conj (alloc_fails ms t src h) (conj (copy_null ms tlen src h) (copy_empty ms t tlen h))). Qed.
Print Assumptions c88_nothing.
Example c88_nothing_ex : copy_buffer [false] (Some 0) 0 [5%Z] heap2 = CRet heap2 0.
Proof. reflexivity. Qed.

(** Whenever the result is 0 every block is as it was; in particular no block is left behind. *)
Theorem c88_zero : forall ms t tlen src h h', numbered h -> (size src < two_gib)%Z ->
  copy_buffer ms t tlen src h = CRet h' 0 -> forall b, content b h' = content b h.
Proof. exact zero_lemma. Qed.
Print Assumptions c88_zero.
Example c88_zero_ex : numbered heap2 /\ copy_buffer [true] (Some 1) 2 [5%Z; 6%Z; 7%Z] heap2 = CRet heap2 0.
Proof. split; [|reflexivity]. intros b. unfold content, heap2. cbn. destruct b as [|[|b]]; cbn; [lia|lia|easy]. Qed.

(** That no more is written than was announced is wrong: length 0 is the request to allocate, and the
    address takes up eight bytes. *)
Theorem c88_zero_length_refuted : ~ (forall ms t tlen src h cs h' r, numbered h -> (size src < two_gib)%Z -> content t h = Some cs ->
  (tlen <= Z.of_nat (length cs))%Z -> copy_buffer ms (Some t) tlen src h = CRet h' r ->
  forall i, (tlen <= Z.of_nat i)%Z -> exists cs', content t h' = Some cs' /\ nth_error cs' i = nth_error cs i).
Proof.
  intros H. assert (N : numbered heap2) by exact (proj1 c88_zero_ex).
  assert (L : (0 <= Z.of_nat (length (repeat Raw 12)))%Z) by (vm_compute; discriminate).
  assert (S : (size [5%Z] < two_gib)%Z) by reflexivity.
  destruct (H [true] 0 0%Z [5%Z] heap2 (repeat Raw 12) _ _ N S eq_refl L eq_refl 0 ltac:(lia)) as (cs' & A & B).
  vm_compute in A. injection A as <-. vm_compute in B. discriminate.
Qed.
Print Assumptions c88_zero_length_refuted.
(** An empty buffer of fewer than eight bytes is overrun. *)
Theorem c88_zero_length_overrun : forall ms t src h cs, numbered h -> content t h = Some cs -> length cs < 8 ->
  src <> [] -> (size src < two_gib)%Z -> copy_buffer (true :: ms) (Some t) 0 src h = CUb.
Proof. exact tiny_alloc. Qed.
Print Assumptions c88_zero_length_overrun.
Example c88_zero_length_overrun_ex : copy_buffer [true] (Some 1) 0 [5%Z] heap2 = CUb.
Proof. reflexivity. Qed.

(** From 2 GiB on the length test is useless: every buffer that can be announced is overrun ... *)
Theorem c88_huge_buffer : forall ms t tlen src h cs, content t h = Some cs -> Z.of_nat (length cs) = tlen ->
  (0 < tlen < two_gib)%Z -> (two_gib <= size src < 2 * two_gib)%Z -> copy_buffer ms (Some t) tlen src h = CUb.
Proof. exact huge_buffer. Qed.
Print Assumptions c88_huge_buffer.
(** ... and letting the library allocate yields nothing. *)
Theorem c88_huge_alloc : forall ms t src h, numbered h -> (two_gib <= size src < 2 * two_gib)%Z ->
  exists h', copy_buffer (true :: ms) (Some t) 0 src h = CRet h' 0 /\ forall b, content b h' = content b h.
Proof. exact huge_alloc. Qed.
Print Assumptions c88_huge_alloc.
Example c88_huge_ex : exists src, (two_gib <= size src < 2 * two_gib)%Z.
Proof. exists (repeat 0%Z (Z.to_nat two_gib)). unfold size. rewrite repeat_length, Z2Nat.id; unfold two_gib; lia. Qed.

(** The getters of names, types and texts copy in the same way. *)
Theorem c88_getters : forall ms t tlen s h, (size s < two_gib)%Z ->
  cp_get ms t tlen s h = copy_buffer ms t tlen s h /\ cp_text ms t tlen s h = copy_buffer ms t tlen s h.
Proof. exact (fun ms t tlen s h S => conj (get_lemma ms t tlen s h S) (text_lemma ms t tlen s h)). Qed.
Print Assumptions c88_getters.
Example c88_getters_ex : exists h', cp_get [] (Some 1) 3 [5%Z] heap2 = CRet h' 1 /\ content 1 h' = Some [Byte 5; Raw; Raw].
Proof. eexists. split; reflexivity. Qed.

(** C89: receiving and calling. *)

(** A waiting message that fits is in the buffer afterwards; one that is empty or does not fit is gone and the result is 0. *)
Theorem c89_to_buffer : forall ms t tlen rd m h cs, content t h = Some cs -> tlen <> 0%Z -> (tlen <= Z.of_nat (length cs))%Z ->
  (size m < two_gib)%Z -> waiting rd m ->
  exists rd', nothing_waiting rd' /\
   ((m <> [] /\ (size m <= tlen)%Z /\ exists h', cp_receive_to ms (Some t) tlen rd h = (rd', CRet h' (size m)) /\
      content t h' = Some (over (bytes m) cs) /\ same_except [t] h h') \/
    ((m = [] \/ (tlen < size m)%Z) /\ cp_receive_to ms (Some t) tlen rd h = (rd', CRet h 0))).
Proof. exact receive_to_lemma. Qed.
Print Assumptions c89_to_buffer.
Example c89_to_buffer_ex : waiting (rd_with [5%Z; 6%Z]) [5%Z; 6%Z] /\
  exists rd' h', cp_receive_to [] (Some 1) 3 (rd_with [5%Z; 6%Z]) heap2 = (rd', CRet h' 2) /\ content 1 h' = Some [Byte 5; Byte 6; Raw].
Proof. split; [repeat split|]. eexists _, _. split; reflexivity. Qed.

(** Nothing waiting: 0, and nothing changes. *)
Theorem c89_nothing : forall ms t tlen rd h, nothing_waiting rd -> cp_receive_to ms t tlen rd h = (rd, CRet h 0).
Proof. exact receive_none. Qed.
Print Assumptions c89_nothing.
Example c89_nothing_ex : nothing_waiting rd_new.
Proof. now right. Qed.

(** That 0 means that there was no message is wrong, and the message is lost. *)
Theorem c89_zero_refuted : ~ (forall ms t tlen rd m h rd' h', numbered h -> (0 < tlen)%Z -> waiting rd m ->
  cp_receive_to ms (Some t) tlen rd h = (rd', CRet h' 0) -> waiting rd' m).
Proof.
  intros H. assert (N : numbered heap2) by exact (proj1 c88_zero_ex).
  specialize (fun A B C => H [] 1 3%Z (rd_with [1;2;3;4]%Z) [1;2;3;4]%Z heap2 _ _ A B C eq_refl).
  destruct (H N ltac:(lia) ltac:(repeat split)) as (_ & R & _). discriminate R.
Qed.
Print Assumptions c89_zero_refuted.

(** Receiving into memory of the library. *)
Theorem c89_alloc : forall ms t rd m h cs, numbered h -> content t h = Some cs -> 8 <= length cs ->
  m <> [] -> (size m < two_gib)%Z -> waiting rd m ->
  exists rd' h' b, nothing_waiting rd' /\ cp_receive_alloc (true :: ms) (Some t) rd h = (rd', CRet h' (size m)) /\
    content b h = None /\ content b h' = Some (bytes m) /\
    content t h' = Some (over (pointer b) cs) /\ same_except [t; b] h h'.
Proof. exact receive_alloc_lemma. Qed.
Print Assumptions c89_alloc.
Example c89_alloc_ex : exists rd' h', cp_receive_alloc [true] (Some 0) (rd_with [5%Z]) heap2 = (rd', CRet h' 1) /\ content 2 h' = Some [Byte 5].
Proof. eexists _, _. split; reflexivity. Qed.

(** The variant that also handles empty messages returns 1 exactly when there was a message. *)
Theorem c89_both_one : forall ms t lp rd h rd' h' r n, cp_receive_both ms t lp rd h = (rd', CRet h' r, n) ->
  (r = 1%Z <-> exists m, waiting rd m) /\ (r = 1%Z \/ r = 0%Z).
Proof. exact both_one. Qed.
Print Assumptions c89_both_one.
Theorem c89_both : forall ms t rd m h cs, numbered h -> content t h = Some cs -> 8 <= length cs ->
  m <> [] -> (size m < two_gib)%Z -> waiting rd m ->
  exists rd' h' b, nothing_waiting rd' /\
    cp_receive_both (true :: ms) (Some t) true rd h = (rd', CRet h' 1, Some (size m)) /\
    content b h = None /\ content b h' = Some (bytes m) /\
    content t h' = Some (over (pointer b) cs) /\ same_except [t; b] h h'.
Proof. exact both_lemma. Qed.
Print Assumptions c89_both.
Example c89_both_ex : exists rd' h', cp_receive_both [true] (Some 0) true (rd_with [5%Z]) heap2 = (rd', CRet h' 1, Some 1%Z) /\
  content 0 h' = Some (pointer 2 ++ [Raw; Raw; Raw; Raw]).
Proof. eexists _, _. split; reflexivity. Qed.

(** An empty message leaves the pointer of the caller as it was. *)
Theorem c89_both_empty : forall ms t rd h, waiting rd [] -> exists rd', cp_receive_both ms t true rd h = (rd', CRet h 1, Some 0%Z).
Proof. exact both_empty. Qed.
Print Assumptions c89_both_empty.
Example c89_both_empty_ex : waiting (rd_with []) [].
Proof. repeat split. Qed.

(** That a positive length comes with a pointer to that many bytes is wrong: without memory the call reports success
    and the length, and the pointer is whatever it was. *)
Theorem c89_both_pointer_refuted : ~ (forall ms t rd m h cs rd' h' n, numbered h -> content t h = Some cs -> 8 <= length cs ->
  (size m < two_gib)%Z -> waiting rd m -> cp_receive_both ms (Some t) true rd h = (rd', CRet h' 1, Some n) -> (0 < n)%Z ->
  exists b, content t h' = Some (over (pointer b) cs) /\ content b h' = Some (bytes m)).
Proof.
  intros H. assert (N : numbered heap2) by exact (proj1 c88_zero_ex).
  specialize (fun A B C D E => H [false] 0 (rd_with [5%Z]) [5%Z] heap2 (repeat Raw 12) _ _ _ A B C D E eq_refl).
  destruct (H N eq_refl ltac:(cbn; lia) ltac:(reflexivity) ltac:(repeat split) ltac:(reflexivity)) as (b & A & _).
  vm_compute in A. discriminate A.
Qed.
Print Assumptions c89_both_pointer_refuted.
Theorem c89_both_failed : forall ms t rd m h, (size m < two_gib)%Z -> waiting rd m -> exists rd', nothing_waiting rd' /\
  cp_receive_both (false :: ms) t true rd h = (rd', CRet h 1, Some (size m)).
Proof. exact both_failed. Qed.
Print Assumptions c89_both_failed.
Example c89_both_failed_ex : exists rd', cp_receive_both [false] (Some 0) true (rd_with [5%Z]) heap2 = (rd', CRet heap2 1, Some 1%Z).
Proof. eexists. reflexivity. Qed.

(** Without a pointer for the length none is written. *)
Theorem c89_both_null : forall ms t rd h, snd (cp_receive_both ms t false rd h) = None.
Proof. exact both_null. Qed.
Print Assumptions c89_both_null.
Example c89_both_null_ex : exists rd' h', cp_receive_both [true] (Some 0) false (rd_with [5%Z]) heap2 = (rd', CRet h' 1, None).
Proof. eexists _, _. reflexivity. Qed.

(** A failed call, or one without response, returns 0 and touches neither memory nor the response structure. *)
Theorem c89_call_failed : forall ms ok rs t tlen h, ok = false \/ rs = [] -> cp_call_wait ms ok rs t tlen h = (CRet h 0, None).
Proof. exact call_failed. Qed.
Print Assumptions c89_call_failed.
Example c89_call_failed_ex : cp_call_wait [] false [CResp 0 1 [9%Z]] (Some 1) 3 heap2 = (CRet heap2 0, None).
Proof. reflexivity. Qed.
(** A call that waits hands out the first response only. *)
Theorem c89_call : forall ms r rs t tlen h, cp_call_wait ms true (r :: rs) t tlen h =
  (copy_buffer ms t tlen (cr_data r) h, Some (cr_ret r, cr_call r)).
Proof. exact call_lemma. Qed.
Print Assumptions c89_call.
Example c89_call_ex : exists h', cp_call_wait [] true [CResp 0 1 [9%Z]; CResp 0 1 [8%Z]] (Some 1) 3 heap2 = (CRet h' 1, Some (0%Z, 1%Z)) /\
  content 1 h' = Some [Byte 9; Raw; Raw].
Proof. eexists. split; reflexivity. Qed.
(** That the result tells a successful call from a failed one is wrong: both are 0 when the response is empty. *)
Theorem c89_call_refuted : ~ (forall ms r rs t tlen h h' n, cp_call_wait ms true (r :: rs) t tlen h = (CRet h' n, Some (cr_ret r, cr_call r)) ->
  fst (cp_call_wait ms false (r :: rs) t tlen h) <> CRet h' n).
Proof. intros H. specialize (H [] (CResp 0 1 []) [] (Some 1) 3%Z heap2 _ _ eq_refl). now apply H. Qed.
Print Assumptions c89_call_refuted.

(** C90: handing over lengths, ids and responses. *)

(** Sending less than 2 GiB: the result is the length if that many bytes were sent, otherwise 0. *)
Theorem c90_send : forall send len, (0 <= len < two_gib)%Z -> (0 <= send len < two_gib)%Z ->
  cp_send send len = if Z.eqb (send len) len then len else 0%Z.
Proof. exact send_lemma. Qed.
Print Assumptions c90_send.
Example c90_send_ex : cp_send (fun n => n) 12 = 12%Z /\ cp_send (fun _ => 0%Z) 12 = 0%Z.
Proof. split; reflexivity. Qed.
(** A negative length is taken for nearly 2^64 bytes, and if nobody has subscribed it is returned as a success. *)
Theorem c90_send_negative : forall send len, (- two_gib <= len < 0)%Z ->
  cp_size_t len = (18446744073709551616 + len)%Z /\ ((forall n, send n = n) -> cp_send send len = len).
Proof. exact send_negative. Qed.
Print Assumptions c90_send_negative.
Example c90_send_negative_ex : cp_send (fun n => n) (-1) = (-1)%Z.
Proof. reflexivity. Qed.

(** The ids of a filter are the first n of the array; any other n reads outside of it. *)
Theorem c90_ids : forall arr n, (0 <= n <= size arr)%Z -> (size arr < two_gib)%Z -> cp_ids arr n = Some (firstn (Z.to_nat n) arr).
Proof. exact ids_ok. Qed.
Print Assumptions c90_ids.
Example c90_ids_ex : cp_ids [4;5;6]%Z 2 = Some [4;5]%Z.
Proof. reflexivity. Qed.
Theorem c90_ids_outside : forall arr n, (- two_gib <= n < two_gib)%Z -> (n < 0 \/ size arr < n)%Z -> (size arr < two_gib)%Z -> cp_ids arr n = None.
Proof. exact ids_bad. Qed.
Print Assumptions c90_ids_outside.
Example c90_ids_outside_ex : cp_ids [4;5;6]%Z (-1) = None.
Proof. reflexivity. Qed.

(** The response of a method is a copy of the bytes it points to; without length it stays as it was; a length beyond
    the block reads outside of it. *)
Theorem c90_method : forall b s rest resp h, content b h = Some (bytes s ++ rest) -> s <> [] ->
  cp_method (Some b) (size s) resp h = MResp s.
Proof. exact method_copy. Qed.
Print Assumptions c90_method.
Theorem c90_method_none : forall p len resp h, (len <= 0)%Z -> cp_method p len resp h = MResp resp.
Proof. exact method_none. Qed.
Print Assumptions c90_method_none.
Theorem c90_method_outside : forall b len resp h cs, content b h = Some cs -> (Z.of_nat (length cs) < len)%Z ->
  cp_method (Some b) len resp h = MUb.
Proof. exact method_bad. Qed.
Print Assumptions c90_method_outside.
Example c90_method_ex : cp_method (Some 0) 2 [] (Heap [(0, [Byte 5; Byte 6; Byte 7])] 1) = MResp [5;6]%Z /\
  cp_method (Some 0) 4 [] (Heap [(0, [Byte 5; Byte 6; Byte 7])] 1) = MUb /\ cp_method None 0 [1%Z] heap2 = MResp [1%Z].
Proof. repeat split. Qed.
(** Methods that allocate their answers answer correctly, and every answer stays in memory for good. *)
Theorem c90_answers : forall l h, numbered h -> exists h', cp_answers l h = (h', map MResp l) /\ numbered h' /\
  length (hp_blocks h') = length (hp_blocks h) + length (filter filled l).
Proof. exact answers_lemma. Qed.
Print Assumptions c90_answers.
Example c90_answers_ex : length (hp_blocks (fst (cp_answers [[5%Z]; []; [6%Z]] heap2))) = 4.
Proof. reflexivity. Qed.

(** C91: the callbacks of one sort run one after the other. *)

Theorem c91_one_thread : forall ss g t u, cg_run ss cg_init = Some g -> busy t g -> busy u g -> t = u.
Proof. exact one_thread. Qed.
Print Assumptions c91_one_thread.
(** As long as a thread is in a callback all steps are its own. *)
Theorem c91_alone : forall pre ss g g' t, cg_run pre cg_init = Some g -> busy t g -> cg_run ss g = Some g' ->
  (forall s, In s ss -> ~ leaves t s) -> forall s, In s ss -> stepper s = t.
Proof. exact alone_reach. Qed.
Print Assumptions c91_alone.
(** So a buffer shared by the callbacks holds what the thread wrote until it leaves or writes again. *)
Theorem c91_shared_buffer : forall pre g t d g1 ss g2, cg_run pre cg_init = Some g -> cg_step (SWrite t d) g = Some g1 ->
  cg_run ss g1 = Some g2 -> (forall s, In s ss -> stepper s <> t) -> cg_buf g2 = d.
Proof. exact buffer_safe. Qed.
Print Assumptions c91_shared_buffer.
(** Nobody else can enter meanwhile: a callback that waits for one of another thread waits for ever. *)
Theorem c91_blocked : forall pre g t u cb, cg_run pre cg_init = Some g -> busy t g -> u <> t -> cg_step (SEnter u cb) g = None.
Proof. exact blocked. Qed.
Print Assumptions c91_blocked.
(** Otherwise entering is possible, also again by the same thread. *)
Theorem c91_entry : forall pre g t cb, cg_run pre cg_init = Some g -> (forall u, u <> t -> ~ busy u g) -> cg_step (SEnter t cb) g <> None.
Proof. exact free_entry. Qed.
Print Assumptions c91_entry.
Example c91_ex : exists g, cg_run [SEnter 1 10; SEnter 1 11; SWrite 1 [7%Z]; SLeave 1] cg_init = Some g /\ busy 1 g /\ cg_buf g = [7%Z] /\
  cg_step (SEnter 2 10) g = None /\ (exists g', cg_run [SLeave 1; SEnter 2 10] g = Some g' /\ busy 2 g').
Proof.
  eexists. split; [reflexivity|]. split; [eexists; split; [reflexivity|discriminate]|]. split; [reflexivity|].
  split; [reflexivity|]. eexists. split; [reflexivity|]. eexists. split; [reflexivity|discriminate].
Qed.
(** That the buffer also survives a callback of the same thread inside the callback is wrong. *)
Theorem c91_nested_refuted : ~ (forall pre g t d g1 cb d2 g2, cg_run pre cg_init = Some g -> cg_step (SWrite t d) g = Some g1 ->
  cg_run [SEnter t cb; SWrite t d2; SLeave t] g1 = Some g2 -> cg_buf g2 = d).
Proof. intros H. specialize (H [SEnter 1 10] _ 1 [7%Z] _ 11 [8%Z] _ eq_refl eq_refl eq_refl). discriminate H. Qed.
Print Assumptions c91_nested_refuted.
