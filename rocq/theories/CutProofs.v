(** Proofs for the C getters. *)
From Verif Require Import Base Sample RegModel PbModel SerModel SerSpec DscModel DscSpec DscProofs DscBest LogModel LogSpec LogProofs CapModel CapSpec CapProofs CutModel CutSpec.

(** ** Topics *)
Lemma c_topic_gate f ms n t len now g h :
  fst (c_topic f ms (Some n) (Some t) len now g h) = fst (dg_subscribers now (fst (dg_publishers now g))).
Proof. reflexivity. Qed.
Lemma c_topic_result f ms n t len now g h :
  snd (c_topic f ms (Some n) (Some t) len now g h) =
  match ut_type_info (upto_zero n) (snd (dg_publishers now g)) (snd (dg_subscribers now g)) with
  | (true, d) => copy_buffer ms (Some t) len (topic_field f d) h
  | (false, _) => CRet h 0
  end.
Proof. reflexivity. Qed.

Lemma run_snoc os : forall g g1 o, dg_run os g = DOk g1 -> dg_run (os ++ [o]) g = dg_step (fst o) (snd o) g1.
Proof.
  induction os as [|[now o1] os IH]; intros g g1 [t o] R; cbn [app dg_run] in *.
  - injection R as <-. cbn [fst snd]. destruct (dg_step t o g); reflexivity.
  - destruct (dg_step now o1 g) as [g2| |] eqn:E; cbn [dbind] in *; try discriminate. apply IH. exact R.
Qed.

Section At.
  Variables (os : list (Z * dgop)) (timeout now : Z) (g : dgate).
  Hypothesis U : upwards (map fst os ++ [now]).
  Hypothesis R : dg_run os (dg_new timeout) = DOk g.
  Let pubs := snd (dg_publishers now g).
  Let subs := snd (dg_subscribers now g).

  Lemma live_listed n p id d : live os timeout now n p id d <-> In (n, TInfo id d (grade d p)) (if p then pubs else subs).
  Proof.
    destruct p; cbn [live].
    - unfold pubs. rewrite (proj1 (publishers_lemma os timeout now g U R)). cbn [ti_id]. split.
      + intros H. exists d. auto.
      + intros (d' & E & H). injection E as <- _. exact H.
    - unfold subs. rewrite (proj1 (subscribers_lemma os timeout now g U R)). cbn [ti_id]. split.
      + intros H. exists d. auto.
      + intros (d' & E & H). injection E as <- _. exact H.
  Qed.
  Lemma listed_live n i : In (n, i) (pubs ++ subs) -> exists p, live os timeout now n p (ti_id i) (ti_info i) /\ ti_quality i = grade (ti_info i) p.
  Proof.
    intros H. apply in_app_or in H as [H|H].
    - pose proof H as H'. apply (proj1 (publishers_lemma os timeout now g U R)) in H' as (d & E & A). exists true.
      rewrite E. cbn [ti_id ti_info ti_quality live]. auto.
    - pose proof H as H'. apply (proj1 (subscribers_lemma os timeout now g U R)) in H' as (d & E & A). exists false.
      rewrite E. cbn [ti_id ti_info ti_quality live]. auto.
  Qed.

  Lemma best_lemma n :
    (exists d, best_known os timeout now n d /\ ut_type_info n pubs subs = (true, d)) \/
    ((forall p id d, ~ live os timeout now n p id d) /\ fst (ut_type_info n pubs subs) = false).
  Proof.
    destruct (topics_lemma os timeout now g U R n) as [A B]. fold pubs subs in A, B.
    destruct (aget n (ut_topics pubs subs)) as [i|].
    - left. exists (ti_info i). split; [|exact B]. destruct A as [Hi M]. destruct (listed_live n i Hi) as (p & L & Q).
      exists p, (ti_id i). split; [exact L|]. intros p' id' d' L'. apply live_listed in L'.
      specialize (M (TInfo id' d' (grade d' p'))). cbn [ti_id ti_quality] in M. rewrite <- Q. apply M.
      apply in_or_app. destruct p'; auto.
    - right. split; [|rewrite B; reflexivity]. intros p id d L. apply live_listed in L.
      apply (A (TInfo id d (grade d p))). apply in_or_app. destruct p; auto.
  Qed.

  Lemma one_type n p id d d' : live os timeout now n p id d -> live os timeout now n p id d' -> d = d'.
  Proof.
    intros A B. apply live_listed in A. apply live_listed in B.
    assert (ND : NoDup (map (fun q => (fst q, ti_id (snd q))) (if p then pubs else subs))).
    { destruct p; [apply (publishers_lemma os timeout now g U R)|apply (subscribers_lemma os timeout now g U R)]. }
    revert ND A B. generalize (if p then pubs else subs). intros l. induction l as [|x l IH]; intros ND A B; [destruct A|].
    cbn [map] in ND. apply NoDup_cons_iff in ND as [N1 ND]. destruct A as [A|A], B as [B|B].
    - congruence.
    - exfalso. subst x. apply N1. apply in_map_iff. eexists. split; [|exact B]. reflexivity.
    - exfalso. subst x. apply N1. apply in_map_iff. eexists. split; [|exact A]. reflexivity.
    - apply IH; assumption.
  Qed.
  Lemma grade_parity d p : Z.odd (grade d p) = p.
  Proof. unfold grade. destruct (given (dt_desc d)), (given (dt_encoding d)), (given (dt_name d)), p; reflexivity. Qed.
  Lemma best_unique n d d' : best_known os timeout now n d -> best_known os timeout now n d' -> d = d'.
  Proof.
    intros (p & id & L & M) (p' & id' & L' & M'). specialize (M _ _ _ L'). specialize (M' _ _ _ L).
    assert (E : grade d p = grade d' p') by lia. assert (id' = id) as -> by lia.
    assert (p' = p) as -> by (rewrite <- (grade_parity d p), <- (grade_parity d' p'); congruence).
    apply (one_type n p id); assumption.
  Qed.
  Lemma later_gate f ms n t len h :
    dg_run (os ++ [(now, DAskPublishers); (now, DAskSubscribers)]) (dg_new timeout) = DOk (fst (c_topic f ms (Some n) (Some t) len now g h)).
  Proof.
    rewrite c_topic_gate. change [(now, DAskPublishers); (now, DAskSubscribers)] with ([(now, DAskPublishers)] ++ [(now, DAskSubscribers)]).
    rewrite app_assoc. rewrite (run_snoc _ _ (fst (dg_publishers now g))).
    - reflexivity.
    - rewrite (run_snoc os _ g) by exact R. reflexivity.
  Qed.
End At.

Lemma given_lemma ms t len s h cs : content t h = Some cs -> len <> 0%Z -> (len <= Z.of_nat (length cs))%Z -> (size s < two_gib)%Z ->
  given_to t len s h (copy_buffer ms (Some t) len s h).
Proof.
  intros C N L S. unfold given_to. destruct s as [|x s]; [apply copy_empty|]. cbn [filled].
  destruct (Z.leb_spec (size (x :: s)) len) as [F|F]; cbn [andb].
  - destruct (copy_fits ms t len (x :: s) h cs C N L) as (h' & A & B & D & _); try assumption; [discriminate|].
    exists h', cs. auto.
  - apply copy_short; assumption.
Qed.

Lemma topic_lemma os timeout now g : upwards (map fst os ++ [now]) -> dg_run os (dg_new timeout) = DOk g ->
  forall f ms n t len h cs, c_text n -> content t h = Some cs -> len <> 0%Z -> (len <= Z.of_nat (length cs))%Z ->
    (forall d, best_known os timeout now n d -> (size (topic_field f d) < two_gib)%Z) ->
    let r := c_topic f ms (Some n) (Some t) len now g h in
    ((exists d, best_known os timeout now n d /\ given_to t len (topic_field f d) h (snd r)) \/
     ((forall p id d, ~ live os timeout now n p id d) /\ snd r = CRet h 0)) /\
    dg_run (os ++ [(now, DAskPublishers); (now, DAskSubscribers)]) (dg_new timeout) = DOk (fst r).
Proof.
  intros U R f ms n t len h cs Z0 C N L S r. split; [|apply later_gate; exact R]. subst r. rewrite c_topic_result.
  rewrite upto_zero_none by exact Z0. destruct (best_lemma os timeout now g U R n) as [(d & B & E)|[A B]].
  - left. exists d. split; [exact B|]. rewrite E. apply (given_lemma ms t len _ h cs); auto.
  - right. split; [exact A|]. destruct (ut_type_info n _ _) as [b d]. cbn [fst] in B. subst b. reflexivity.
Qed.
Lemma topic_alloc_lemma os timeout now g : upwards (map fst os ++ [now]) -> dg_run os (dg_new timeout) = DOk g ->
  forall f ms n t h cs, c_text n -> numbered h -> content t h = Some cs -> 8 <= length cs ->
    (forall d, best_known os timeout now n d -> (size (topic_field f d) < two_gib)%Z) ->
    let r := snd (c_topic f (true :: ms) (Some n) (Some t) 0 now g h) in
    (exists d h' b, best_known os timeout now n d /\ filled (topic_field f d) = true /\ r = CRet h' (size (topic_field f d)) /\
       content b h = None /\ content b h' = Some (bytes (topic_field f d)) /\ content t h' = Some (over (pointer b) cs) /\ same_except [t; b] h h') \/
    (((forall p id d, ~ live os timeout now n p id d) \/ exists d, best_known os timeout now n d /\ topic_field f d = []) /\ r = CRet h 0).
Proof.
  intros U R f ms n t h cs Z0 W C L S r. subst r. rewrite c_topic_result.
  rewrite upto_zero_none by exact Z0. destruct (best_lemma os timeout now g U R n) as [(d & B & E)|[A B]].
  - rewrite E. destruct (topic_field f d) as [|x s] eqn:F.
    + right. split; [right; exists d; auto|]. apply copy_empty.
    + left. specialize (S d B). rewrite F in S.
      destruct (alloc_lemma ms t (x :: s) h cs W C L) as (h' & b & A1 & A2 & A3 & A4 & A5); [discriminate|exact S|].
      exists d, h', b. rewrite F. repeat (split; [assumption || reflexivity|]). exact A5.
  - right. split; [left; exact A|]. destruct (ut_type_info n _ _) as [b d]. cbn [fst] in B. subst b. reflexivity.
Qed.

(** ** Methods *)
Lemma c_method_result client f ms n x t len now g h :
  c_method client f ms (Some n) (Some x) (Some t) len now g h =
  (fst (if client then dg_clients now g else dg_services now g),
   match ut_method_info (upto_zero n, upto_zero x) (snd (if client then dg_clients now g else dg_services now g)) with
   | (true, i) => copy_buffer ms (Some t) len (method_field f i) h
   | (false, _) => CRet h 0
   end).
Proof. destruct client; reflexivity. Qed.
Lemma method_listed os timeout now g (client : bool) : upwards (map fst os ++ [now]) -> dg_run os (dg_new timeout) = DOk g ->
  forall n x, (forall i, In ((n, x), i) (snd (if client then dg_clients now g else dg_services now g)) ->
      exists me, si_req i = request_of me /\ si_resp i = response_of me /\ has_method client os timeout now n x me) /\
    (forall me, has_method client os timeout now n x me -> exists i, In ((n, x), i) (snd (if client then dg_clients now g else dg_services now g))).
Proof.
  intros U R n x. destruct client; split.
  - intros i H. apply (clients_lemma os timeout now g U R) in H as (me & -> & A). exists me. repeat split. eexists. exact A.
  - intros me [id A]. eexists (SInfo id _ _ _ _). apply (clients_lemma os timeout now g U R). exists me. split; [reflexivity|exact A].
  - intros i H. apply (services_lemma os timeout now g U R) in H as (me & -> & A). exists me. repeat split. eexists. exact A.
  - intros me [id A]. eexists (SInfo id _ _ _ _). apply (services_lemma os timeout now g U R). exists me. split; [reflexivity|exact A].
Qed.
Lemma method_lemma os timeout now g (client : bool) : upwards (map fst os ++ [now]) -> dg_run os (dg_new timeout) = DOk g ->
  forall n x, c_text n -> c_text x ->
  (exists me, has_method client os timeout now n x me /\
     forall f ms t len h cs, content t h = Some cs -> len <> 0%Z -> (len <= Z.of_nat (length cs))%Z -> (size (method_text f me) < two_gib)%Z ->
       given_to t len (method_text f me) h (snd (c_method client f ms (Some n) (Some x) (Some t) len now g h))) \/
  ((forall me, ~ has_method client os timeout now n x me) /\
     forall f ms t len h, snd (c_method client f ms (Some n) (Some x) (Some t) len now g h) = CRet h 0).
Proof.
  intros U R n x Zn Zx. destruct (method_listed os timeout now g client U R n x) as [A B].
  set (l := snd (if client then dg_clients now g else dg_services now g)) in *.
  assert (E : l = snd (dg_services now g) \/ l = snd (dg_clients now g)) by (unfold l; destruct client; auto).
  destruct (methods_lemma os timeout now g U R l (n, x) E) as [(M1 & M2 & _) _].
  destruct (ut_method_info (n, x) l) as [b i] eqn:I. cbn [fst snd] in M1, M2. destruct b.
  - left. destruct (M2 eq_refl) as (j & Hj & Q1 & Q2). destruct (A j Hj) as (me & P1 & P2 & P3). exists me. split; [exact P3|].
    intros f ms t len h cs C N L S. rewrite c_method_result. cbn [snd]. rewrite !upto_zero_none by assumption. fold l. rewrite I.
    replace (method_field f i) with (method_text f me); [apply (given_lemma ms t len _ h cs); assumption|].
    destruct f; cbn [method_text method_field]; rewrite ?Q1, ?Q2, ?P1, ?P2; reflexivity.
  - right. split.
    + intros me H. destruct (B me H) as [j Hj]. discriminate (proj2 M1). exists j; exact Hj.
    + intros f ms t len h. rewrite c_method_result. cbn [snd]. rewrite !upto_zero_none by assumption. fold l. rewrite I. reflexivity.
Qed.

(** ** Null pointers *)
Lemma null_lemma f k (client : bool) ms name meth target len now g h :
  (name = None \/ target = None -> c_topic f ms name target len now g h = (g, CRet h 0)) /\
  (name = None \/ meth = None \/ target = None -> c_method client k ms name meth target len now g h = (g, CRet h 0)).
Proof.
  split.
  - intros [-> | ->]; [reflexivity|destruct name; reflexivity].
  - intros [-> | [-> | ->]]; [reflexivity|destruct name; reflexivity|destruct name, meth; reflexivity].
Qed.

(** ** The log *)
Lemma c_logging_eq me ms target len s h :
  c_logging me ms target len s h =
  (set_queue [] s, if Z.eqb (cp_int (cp_size (ser_logs (lo_queue s)))) 0 then CRet h 0 else copy_buffer ms target len (ser_logs (lo_queue s)) h).
Proof. reflexivity. Qed.
Lemma log_refines_lemma me os s h s' h' rs :
  cl_run me os s h = (s', Some h', rs) -> s' = fold_left (fun s o => fst (log_step me (as_log_call o) s)) os s.
Proof.
  revert s h rs. induction os as [|o os IH]; intros s h rs E; cbn [cl_run fold_left] in *; [congruence|].
  assert (S1 : fst (cl_step me o s h) = fst (log_step me (as_log_call o) s)) by (destruct o; reflexivity).
  destruct (cl_step me o s h) as [s1 r1]. cbn [fst] in S1. subst s1. destruct r1 as [|h1 r1]; [discriminate E|].
  destruct (cl_run me os (fst (log_step me (as_log_call o) s)) h1) as [[s2 h2] rs2] eqn:E2.
  injection E as -> -> <-. eapply IH. exact E2.
Qed.
Lemma log_lemma me ms t len s h cs :
  lo_queue s <> [] -> Forall wf_log (lo_queue s) -> content t h = Some cs -> len <> 0%Z -> (len <= Z.of_nat (length cs))%Z -> (len < two_gib)%Z ->
  (size (ser_logs (lo_queue s)) <= len)%Z ->
  exists bs h', c_logging me ms (Some t) len s h = (fst (log_step me LFetch s), CRet h' (size bs)) /\
    content t h' = Some (over (bytes bs) cs) /\ same_except [t] h h' /\ de_logs bs = Ok (lo_queue s) /\ lo_queue (fst (log_step me LFetch s)) = [].
Proof.
  intros Q W C N L T F. destruct (LogProofs.buffer_lemma me s Q W) as (s' & bs & A & B & D).
  { unfold size, two_gib in *. change (PbModel.len (ser_logs (lo_queue s))) with (Z.of_nat (length (ser_logs (lo_queue s)))). lia. }
  assert (A' : (set_queue [] s, [EBuffer (ser_logs (lo_queue s))]) = (s', [EBuffer bs])) by exact A. injection A' as <- <-.
  assert (E : ser_logs (lo_queue s) <> []).
  { intros E. rewrite E in B. vm_compute in B. discriminate B. }
  destruct (copy_fits ms t len _ h cs C N L E F) as (h' & G & H & J & _); [unfold two_gib in *; lia|].
  exists (ser_logs (lo_queue s)), h'. rewrite c_logging_eq. rewrite cp_int_len by lia.
  pose proof (size_pos _ E) as P. destruct (Z.eqb_spec (size (ser_logs (lo_queue s))) 0) as [Y|_]; [lia|].
  rewrite G, <- D. repeat (split; [assumption || reflexivity|]). reflexivity.
Qed.
Lemma log_small_lemma me ms target len s h : (size (ser_logs (lo_queue s)) < two_gib)%Z ->
  target = None \/ (len <> 0 /\ len < size (ser_logs (lo_queue s)))%Z \/ (len = 0%Z /\ (ms = [] \/ exists ms', ms = false :: ms')) ->
  c_logging me ms target len s h = (fst (log_step me LFetch s), CRet h 0) /\ lo_queue (fst (log_step me LFetch s)) = [].
Proof.
  intros T H. split; [|reflexivity]. rewrite c_logging_eq. change (fst (log_step me LFetch s)) with (set_queue [] s). f_equal.
  destruct (Z.eqb (cp_int (cp_size (ser_logs (lo_queue s)))) 0); [reflexivity|]. destruct H as [->|[[N L]|[-> H]]].
  - apply copy_null.
  - destruct target as [t|]; [apply copy_short; assumption|apply copy_null].
  - destruct target as [t|]; [|apply copy_null].
    destruct (ser_logs (lo_queue s)); [apply copy_empty|]. rewrite copy_unfold by discriminate. destruct H as [->|[ms' ->]]; reflexivity.
Qed.
Lemma log_lost_lemma me ms t len ms' target' len' s h : (size (ser_logs (lo_queue s)) < two_gib)%Z ->
  (0 < len < size (ser_logs (lo_queue s)))%Z ->
  cl_run me [CFetch ms (Some t) len; CFetch ms' target' len'] s h = (set_queue [] s, Some h, [0%Z; 0%Z]).
Proof.
  intros T L. cbn [cl_run cl_step]. destruct (log_small_lemma me ms (Some t) len s h T) as [-> _]; [right; left; lia|].
  rewrite c_logging_eq. change (fst (log_step me LFetch s)) with (set_queue [] s). destruct s; reflexivity.
Qed.

(** ** The time *)
Lemma status_alloc_lemma status ms t h cs : snd status <> [] -> numbered h -> content t h = Some cs -> 8 <= length cs -> (size (snd status) < two_gib)%Z ->
  exists h' b, c_status status (true :: ms) true (Some t) 0 h = (CRet h' (size (snd status)), Some (fst status)) /\
    content b h = None /\ content b h' = Some (bytes (snd status)) /\ content t h' = Some (over (pointer b) cs) /\ same_except [t; b] h h'.
Proof.
  destruct status as [e m]. cbn [snd fst]. intros Q W C L S. destruct (alloc_lemma ms t m h cs W C L Q S) as (h' & b & A & B).
  exists h', b. split; [|exact B]. unfold c_status. cbn [Z.eqb orb snd fst]. destruct m; [contradiction Q; reflexivity|]. rewrite A. reflexivity.
Qed.
Lemma status_number_lemma status ms target len h :
  ((len < 0)%Z -> c_status status ms true target len h = (CRet h 0, Some (fst status))) /\
  ((0 < len < size (snd status))%Z -> (size (snd status) < two_gib)%Z -> c_status status ms true target len h = (CRet h 0, Some (fst status))).
Proof.
  unfold c_status. split.
  - intros L. destruct (Z.eqb_spec len 0); [lia|]. destruct (Z.ltb_spec 0 len); [lia|]. reflexivity.
  - intros L T. destruct (Z.eqb_spec len 0); [lia|]. destruct (Z.ltb_spec 0 len); [|lia]. cbn [orb].
    destruct (snd status) as [|x m] eqn:E; [reflexivity|]. rewrite <- E in *.
    destruct target as [t|]; [rewrite copy_short by (assumption || lia)|rewrite copy_null]; reflexivity.
Qed.
Lemma status_over_lemma status ms t len h cs : content t h = Some cs -> (0 < size (snd status) <= len)%Z -> (size (snd status) < two_gib)%Z ->
  ((Z.of_nat (length cs) < size (snd status))%Z -> c_status status ms true (Some t) len h = (CUb, Some (fst status))) /\
  ((size (snd status) <= Z.of_nat (length cs))%Z -> exists h', c_status status ms true (Some t) len h = (CRet h' (size (snd status)), Some (fst status)) /\
     content t h' = Some (over (bytes (snd status)) cs) /\ same_except [t] h h').
Proof.
  intros C L T. unfold c_status. destruct (Z.eqb_spec len 0); [lia|]. destruct (Z.ltb_spec 0 len); [|lia]. cbn [orb].
  destruct (snd status) as [|x m] eqn:E; [cbn in L; lia|]. rewrite copy_unfold by discriminate.
  destruct (Z.eqb_spec len 0); [lia|]. rewrite cp_int_len by exact T. destruct (Z.ltb_spec len (size (x :: m))); [lia|].
  split; intros F.
  - rewrite (store_none t _ cs h C); [reflexivity|]. rewrite map_length. unfold size in F. lia.
  - destruct (store_ok t (map Byte (x :: m)) cs h C) as (h' & -> & B & D & _); [rewrite map_length; unfold size in F; lia|].
    exists h'. auto.
Qed.

(** ** Counterexamples *)
Lemma torn_lemma :
  exists g1 g2 h1 h2 h0, h0 = heap3 /\
    dg_run first_pub (dg_new 10) = DOk g1 /\ dg_run then_other (fst (c_topic FType [] (Some (str "t")) (Some 0) 8 0 g1 heap3)) = DOk g2 /\
    snd (c_topic FType [] (Some (str "t")) (Some 0) 8 0 g1 h0) = CRet h1 1 /\
    snd (c_topic FEncoding [] (Some (str "t")) (Some 1) 100 1 g2 h1) = CRet h2 5 /\
    option_map (firstn 1) (content 0 h2) = Some (bytes (dt_name tyA)) /\
    option_map (firstn 5) (content 1 h2) = Some (bytes (dt_encoding tyB)) /\ dt_encoding tyB <> dt_encoding tyA.
Proof. do 5 eexists. repeat (split; [vm_compute; reflexivity|]). discriminate. Qed.
Lemma zero_lemma :
  exists g g', dg_run bare_pub (dg_new 10) = DOk g /\ dg_run first_pub (dg_new 10) = DOk g' /\
    live bare_pub 10 0 (str "t") true 7 dt0 /\
    (forall f, snd (c_topic f [] (Some (str "t")) (Some 1) 100 0 g heap3) = CRet heap3 0) /\
    snd (c_topic FEncoding [] (Some (str "t")) (Some 1) 3 0 g' heap3) = CRet heap3 0 /\
    snd (c_topic FEncoding [] (Some (str "u")) (Some 1) 3 0 g' heap3) = CRet heap3 0.
Proof.
  do 2 eexists. split; [vm_compute; reflexivity|]. split; [vm_compute; reflexivity|]. split.
  - apply (live_listed bare_pub 10 0 _ ltac:(cbn; lia) ltac:(vm_compute; reflexivity)). vm_compute. auto.
  - split; [intros []; vm_compute; reflexivity|]. split; vm_compute; reflexivity.
Qed.
Lemma status_null_lemma status ms target len h : fst (c_status status ms false target len h) = CUb.
Proof. reflexivity. Qed.
Lemma one_description_case : exists g, dg_run first_pub (dg_new 10) = DOk g /\ best_known first_pub 10 0 (str "t") tyA.
Proof.
  eexists. split; [vm_compute; reflexivity|].
  assert (U : upwards (map fst first_pub ++ [0%Z])) by (cbn; lia).
  assert (R : dg_run first_pub (dg_new 10) = DOk (match dg_run first_pub (dg_new 10) with DOk g => g | _ => dg_new 10 end)) by (vm_compute; reflexivity).
  exists true, 7%Z. split.
  - apply (live_listed _ _ _ _ U R). vm_compute. auto.
  - intros p' id' d' L. apply (live_listed _ _ _ _ U R) in L. destruct p'; vm_compute in L.
    + destruct L as [L|[]]. injection L as <- <-. right. split; [reflexivity|lia].
    + destruct L.
Qed.
