(** C111: the C getters of type information, of the log and of the time status. *)
From Verif Require Import Base Sample RegModel PbModel SerModel SerSpec DscModel DscSpec LogModel CapModel CapSpec CutModel CutSpec CutProofs.

(** After any history: the text of the best description that is alive is stored completely, if it is not empty and fits; otherwise the
    answer is 0 and nothing was written.  The gate is as after asking for publishers and subscribers, so that the next question starts from such a history, too. *)
Theorem c111_topic :
  forall os timeout now g, upwards (map fst os ++ [now]) -> dg_run os (dg_new timeout) = DOk g ->
  forall f ms n t len h cs, c_text n -> content t h = Some cs -> len <> 0%Z -> (len <= Z.of_nat (length cs))%Z ->
    (forall d, best_known os timeout now n d -> (size (topic_field f d) < two_gib)%Z) ->
    let r := c_topic f ms (Some n) (Some t) len now g h in
    ((exists d, best_known os timeout now n d /\ given_to t len (topic_field f d) h (snd r)) \/
     ((forall p id d, ~ live os timeout now n p id d) /\ snd r = CRet h 0)) /\
    dg_run (os ++ [(now, DAskPublishers); (now, DAskSubscribers)]) (dg_new timeout) = DOk (fst r).
Proof. exact topic_lemma. Qed.
Print Assumptions c111_topic.
Example c111_topic_case :
  exists g h', dg_run (first_pub ++ then_other) (dg_new 10) = DOk g /\ upwards (map fst (first_pub ++ then_other) ++ [1%Z]) /\ c_text (str "t") /\
    content 1 heap3 = Some (repeat Raw 100) /\
    snd (c_topic FEncoding [] (Some (str "t")) (Some 1) 100 1 g heap3) = CRet h' 5 /\
    option_map (firstn 6) (content 1 h') = Some (bytes (str "mpack") ++ [Raw]).
Proof.
  do 2 eexists. split; [vm_compute; reflexivity|]. split; [cbn; lia|]. split; [intros H; vm_compute in H; intuition discriminate|].
  split; [reflexivity|]. split; vm_compute; reflexivity.
Qed.

(** The same when the caller asks for memory: a new block with exactly the text, and its address in the pointer of the caller. *)
Theorem c111_topic_alloc :
  forall os timeout now g, upwards (map fst os ++ [now]) -> dg_run os (dg_new timeout) = DOk g ->
  forall f ms n t h cs, c_text n -> numbered h -> content t h = Some cs -> 8 <= length cs ->
    (forall d, best_known os timeout now n d -> (size (topic_field f d) < two_gib)%Z) ->
    let r := snd (c_topic f (true :: ms) (Some n) (Some t) 0 now g h) in
    (exists d h' b, best_known os timeout now n d /\ filled (topic_field f d) = true /\ r = CRet h' (size (topic_field f d)) /\
       content b h = None /\ content b h' = Some (bytes (topic_field f d)) /\ content t h' = Some (over (pointer b) cs) /\ same_except [t; b] h h') \/
    (((forall p id d, ~ live os timeout now n p id d) \/ exists d, best_known os timeout now n d /\ topic_field f d = []) /\ r = CRet h 0).
Proof. exact topic_alloc_lemma. Qed.
Print Assumptions c111_topic_alloc.
Example c111_topic_alloc_case :
  exists g h', dg_run first_pub (dg_new 10) = DOk g /\ snd (c_topic FEncoding [true] (Some (str "t")) (Some 0) 0 1 g heap3) = CRet h' 5 /\
    content 0 h' = Some (pointer 2) /\ content 2 h' = Some (bytes (str "proto")).
Proof. do 2 eexists. split; [vm_compute; reflexivity|]. split; [vm_compute; reflexivity|]. split; vm_compute; reflexivity. Qed.

(** There is at most one best description, so type, encoding and description belong together as long as nothing is registered or lost between the calls. *)
Theorem c111_one_description :
  forall os timeout now g, upwards (map fst os ++ [now]) -> dg_run os (dg_new timeout) = DOk g ->
  forall n d d', best_known os timeout now n d -> best_known os timeout now n d' -> d = d'.
Proof. exact best_unique. Qed.
Print Assumptions c111_one_description.
Example c111_one_description_case :
  exists g, dg_run first_pub (dg_new 10) = DOk g /\ best_known first_pub 10 0 (str "t") tyA.
Proof. exact one_description_case. Qed.

(** C111 is false for several calls: type name and encoding are separate questions.  A publisher leaves between the two calls and another one
    appears, so the caller gets the type name of the first and the encoding of the second.  No C function reports both at once. *)
Theorem c111_torn_refuted :
  exists g1 g2 h1 h2 h0, h0 = heap3 /\
    dg_run first_pub (dg_new 10) = DOk g1 /\ dg_run then_other (fst (c_topic FType [] (Some (str "t")) (Some 0) 8 0 g1 heap3)) = DOk g2 /\
    snd (c_topic FType [] (Some (str "t")) (Some 0) 8 0 g1 h0) = CRet h1 1 /\
    snd (c_topic FEncoding [] (Some (str "t")) (Some 1) 100 1 g2 h1) = CRet h2 5 /\
    option_map (firstn 1) (content 0 h2) = Some (bytes (dt_name tyA)) /\
    option_map (firstn 5) (content 1 h2) = Some (bytes (dt_encoding tyB)) /\ dt_encoding tyB <> dt_encoding tyA.
Proof. exact torn_lemma. Qed.
Print Assumptions c111_torn_refuted.

(** C111 is false for the answer 0: it stands for an unknown topic, for a known topic without description, and for a buffer that is too small.
    The caller cannot tell these apart. *)
Theorem c111_zero_refuted :
  exists g g', dg_run bare_pub (dg_new 10) = DOk g /\ dg_run first_pub (dg_new 10) = DOk g' /\
    live bare_pub 10 0 (str "t") true 7 dt0 /\
    (forall f, snd (c_topic f [] (Some (str "t")) (Some 1) 100 0 g heap3) = CRet heap3 0) /\
    snd (c_topic FEncoding [] (Some (str "t")) (Some 1) 3 0 g' heap3) = CRet heap3 0 /\
    snd (c_topic FEncoding [] (Some (str "u")) (Some 1) 3 0 g' heap3) = CRet heap3 0.
Proof. exact zero_lemma. Qed.
Print Assumptions c111_zero_refuted.

(** Methods: one live description is chosen, and all four getters report from it; which one is C60. *)
Theorem c111_method :
  forall os timeout now g (client : bool), upwards (map fst os ++ [now]) -> dg_run os (dg_new timeout) = DOk g ->
  forall n x, c_text n -> c_text x ->
  (exists me, has_method client os timeout now n x me /\
     forall f ms t len h cs, content t h = Some cs -> len <> 0%Z -> (len <= Z.of_nat (length cs))%Z -> (size (method_text f me) < two_gib)%Z ->
       given_to t len (method_text f me) h (snd (c_method client f ms (Some n) (Some x) (Some t) len now g h))) \/
  ((forall me, ~ has_method client os timeout now n x me) /\
     forall f ms t len h, snd (c_method client f ms (Some n) (Some x) (Some t) len now g h) = CRet h 0).
Proof. exact method_lemma. Qed.
Print Assumptions c111_method.
Example c111_method_case :
  exists g h' h'', dg_run a_service (dg_new 10) = DOk g /\ upwards (map fst a_service ++ [1%Z]) /\
    snd (c_method false FRespType [] (Some (str "s")) (Some (str "m")) (Some 1) 100 1 g heap3) = CRet h' 1 /\
    option_map (firstn 1) (content 1 h') = Some (bytes (str "R")) /\
    snd (c_method false FReqDesc [] (Some (str "s")) (Some (str "m")) (Some 1) 100 1 g heap3) = CRet h'' 1 /\
    option_map (firstn 1) (content 1 h'') = Some (bytes (str "q")) /\
    snd (c_method true FReqDesc [] (Some (str "s")) (Some (str "m")) (Some 1) 100 1 g heap3) = CRet heap3 0.
Proof.
  do 3 eexists. split; [vm_compute; reflexivity|]. split; [cbn; lia|]. split; [vm_compute; reflexivity|]. split; [vm_compute; reflexivity|].
  split; [vm_compute; reflexivity|]. split; vm_compute; reflexivity.
Qed.

(** Null pointers: 0, and not even the gate is asked. *)
Theorem c111_null :
  forall f k (client : bool) ms name meth target len now g h,
  (name = None \/ target = None -> c_topic f ms name target len now g h = (g, CRet h 0)) /\
  (name = None \/ meth = None \/ target = None -> c_method client k ms name meth target len now g h = (g, CRet h 0)).
Proof. exact null_lemma. Qed.
Print Assumptions c111_null.

(** The log: with a buffer that is large enough, the bytes there decode to the messages that were waiting, and none is waiting afterwards. *)
Theorem c111_log :
  forall me ms t len s h cs,
  lo_queue s <> [] -> Forall wf_log (lo_queue s) -> content t h = Some cs -> len <> 0%Z -> (len <= Z.of_nat (length cs))%Z -> (len < two_gib)%Z ->
  (size (ser_logs (lo_queue s)) <= len)%Z ->
  exists bs h', c_logging me ms (Some t) len s h = (fst (log_step me LFetch s), CRet h' (size bs)) /\
    content t h' = Some (over (bytes bs) cs) /\ same_except [t] h h' /\ de_logs bs = Ok (lo_queue s) /\ lo_queue (fst (log_step me LFetch s)) = [].
Proof. exact log_lemma. Qed.
Print Assumptions c111_log.
Example c111_log_case :
  lo_queue waiting_log = [a_message] /\ wf_log a_message /\ (size (ser_logs [a_message]) <= 100)%Z /\
  exists h', snd (c_logging me0 [] (Some 1) 100 waiting_log heap3) = CRet h' (size (ser_logs [a_message])).
Proof.
  split; [reflexivity|]. split; [vm_compute; repeat split; try discriminate; try lia; repeat constructor; discriminate|].
  split; [vm_compute; discriminate|]. eexists. vm_compute. reflexivity.
Qed.

(** Whatever calls are made, the log goes through the states of the log of C++ with the same calls. *)
Theorem c111_log_refines :
  forall me os s h s' h' rs, cl_run me os s h = (s', Some h', rs) -> s' = fold_left (fun s o => fst (log_step me (as_log_call o) s)) os s.
Proof. exact log_refines_lemma. Qed.
Print Assumptions c111_log_refines.

(** With no buffer, one that is too small, or no memory: the answer is 0, nothing is written. *)
Theorem c111_log_small :
  forall me ms target len s h, (size (ser_logs (lo_queue s)) < two_gib)%Z ->
  target = None \/ (len <> 0 /\ len < size (ser_logs (lo_queue s)))%Z \/ (len = 0%Z /\ (ms = [] \/ exists ms', ms = false :: ms')) ->
  c_logging me ms target len s h = (fst (log_step me LFetch s), CRet h 0) /\ lo_queue (fst (log_step me LFetch s)) = [].
Proof. exact log_small_lemma. Qed.
Print Assumptions c111_log_small.

(** C111 is false for a buffer that is too small for the waiting log messages: eCAL_Logging_GetLogging returns 0, as it does for an empty log, and the
    messages are gone.  A second call with any buffer returns 0, too. *)
Theorem c111_log_lost_refuted :
  forall me ms t len ms' target' len' s h, (size (ser_logs (lo_queue s)) < two_gib)%Z ->
  (0 < len < size (ser_logs (lo_queue s)))%Z ->
  cl_run me [CFetch ms (Some t) len; CFetch ms' target' len'] s h = (set_queue [] s, Some h, [0%Z; 0%Z]).
Proof. exact log_lost_lemma. Qed.
Print Assumptions c111_log_lost_refuted.
Example c111_log_lost_case :
  (0 < 8 < size (ser_logs (lo_queue waiting_log)))%Z /\
  snd (cl_run me0 [CFetch [] (Some 1) 8; CFetch [] (Some 1) 100] waiting_log heap3) = [0%Z; 0%Z].
Proof. vm_compute. repeat split; reflexivity. Qed.

(** The time: the text in memory of its own, when the caller asks for that. *)
Theorem c111_status_alloc :
  forall status ms t h cs, snd status <> [] -> numbered h -> content t h = Some cs -> 8 <= length cs -> (size (snd status) < two_gib)%Z ->
  exists h' b, c_status status (true :: ms) true (Some t) 0 h = (CRet h' (size (snd status)), Some (fst status)) /\
    content b h = None /\ content b h' = Some (bytes (snd status)) /\ content t h' = Some (over (pointer b) cs) /\ same_except [t; b] h h'.
Proof. exact status_alloc_lemma. Qed.
Print Assumptions c111_status_alloc.
Example c111_status_alloc_case :
  exists h', c_status ((-1)%Z, status_text) [true] true (Some 0) 0 heap3 = (CRet h' 37, Some (-1)%Z) /\
    content 0 h' = Some (pointer 2) /\ content 2 h' = Some (bytes status_text).
Proof. eexists. split; [vm_compute; reflexivity|]. split; vm_compute; reflexivity. Qed.

(** A negative length asks for the number only; a positive one below the length of the text gives the number only, too. *)
Theorem c111_status_number :
  forall status ms target len h,
  ((len < 0)%Z -> c_status status ms true target len h = (CRet h 0, Some (fst status))) /\
  ((0 < len < size (snd status))%Z -> (size (snd status) < two_gib)%Z -> c_status status ms true target len h = (CRet h 0, Some (fst status))).
Proof. exact status_number_lemma. Qed.
Print Assumptions c111_status_number.

(** C111 is false for eCAL_Time_GetStatus with a buffer of the caller: the function takes the address of the caller's pointer, and the text is written over
    that pointer instead of into the buffer.  The variable holds 8 bytes and the text of a build without time synchronization has 37, so the call writes
    beyond the variable; a text of at most 8 bytes would replace the pointer. *)
Theorem c111_status_buffer_refuted :
  forall status ms t len h cs, content t h = Some cs -> (0 < size (snd status) <= len)%Z -> (size (snd status) < two_gib)%Z ->
  ((Z.of_nat (length cs) < size (snd status))%Z -> c_status status ms true (Some t) len h = (CUb, Some (fst status))) /\
  ((size (snd status) <= Z.of_nat (length cs))%Z -> exists h', c_status status ms true (Some t) len h = (CRet h' (size (snd status)), Some (fst status)) /\
     content t h' = Some (over (bytes (snd status)) cs) /\ same_except [t] h h').
Proof. exact status_over_lemma. Qed.
Print Assumptions c111_status_buffer_refuted.
Example c111_status_buffer_case :
  content 0 heap3 = Some (repeat Raw 8) /\ size status_text = 37%Z /\
  fst (c_status ((-1)%Z, status_text) [] true (Some 0) 100 heap3) = CUb.
Proof. repeat split; vm_compute; reflexivity. Qed.

(** C111 is false for eCAL_Time_GetStatus without a place for the number: the pointer is followed without a check, for every length. *)
Theorem c111_status_null_refuted :
  forall status ms target len h, fst (c_status status ms false target len h) = CUb.
Proof. exact status_null_lemma. Qed.
Print Assumptions c111_status_null_refuted.
