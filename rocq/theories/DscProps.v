(** Properties C44 (listings), C45 (malformed ids) and C60 (best type information). *)
From Verif Require Import Base Sample RegModel PbModel SerModel ExpMapModel DscModel DscSpec DscProofs DscBest.

(** C44: after every history, the publisher listing shows an entry exactly if the latest
    sample of a publisher with that topic and number is a registration within the timeout;
    it carries the type of that registration; no topic and number is listed twice. *)
Theorem c44_publishers :
  forall os timeout now g, upwards (map fst os ++ [now]) -> dg_run os (dg_new timeout) = DOk g ->
  (forall name i, In (name, i) (snd (dg_publishers now g)) <->
     exists d, i = TInfo (ti_id i) d (grade d true) /\
               topic_alive bct_reg_publisher is_pub_cmd (samples os) timeout now name (ti_id i) d) /\
  NoDup (map (fun p => (fst p, ti_id (snd p))) (snd (dg_publishers now g))).
Proof. exact publishers_lemma. Qed.
Print Assumptions c44_publishers.

Theorem c44_subscribers :
  forall os timeout now g, upwards (map fst os ++ [now]) -> dg_run os (dg_new timeout) = DOk g ->
  (forall name i, In (name, i) (snd (dg_subscribers now g)) <->
     exists d, i = TInfo (ti_id i) d (grade d false) /\
               topic_alive bct_reg_subscriber is_sub_cmd (samples os) timeout now name (ti_id i) d) /\
  NoDup (map (fun p => (fst p, ti_id (snd p))) (snd (dg_subscribers now g))).
Proof. exact subscribers_lemma. Qed.
Print Assumptions c44_subscribers.

(** Publisher 7 is registered anew with a type, 8 is withdrawn, 9 times out. *)
Definition c44_history : list (Z * dgop) :=
  [(0%Z, DSample (topic_sample bct_reg_publisher (str "h") (str "t") (str "9") dt0));
   (2%Z, DSample (topic_sample bct_reg_publisher (str "h") (str "t") (str "7") dt0));
   (3%Z, DAskPublishers);
   (4%Z, DSample (topic_sample bct_reg_publisher (str "h") (str "t") (str "8") dt0));
   (5%Z, DSample (topic_sample bct_reg_subscriber (str "h") (str "t") (str "7") dt0));
   (8%Z, DSample (topic_sample bct_reg_publisher (str "h") (str "t") (str "7") (DataType (str "T") [] [])));
   (9%Z, DSample (topic_sample bct_unreg_publisher (str "h") (str "t") (str "8") dt0))].
Example c44_case :
  upwards (map fst c44_history ++ [14%Z]) /\
  exists g, dg_run c44_history (dg_new 10) = DOk g /\
    snd (dg_publishers 14 g) = [(str "t", TInfo 7 (DataType (str "T") [] []) 3)] /\
    snd (dg_subscribers 14 g) = [(str "t", TInfo 7 dt0 0)].
Proof. split; [cbn; lia|]. eexists. split; [vm_compute; reflexivity|]. split; vm_compute; reflexivity. Qed.

(** C44: the same for the methods of services and of clients. *)
Theorem c44_services :
  forall os timeout now g, upwards (map fst os ++ [now]) -> dg_run os (dg_new timeout) = DOk g ->
  (forall name x i, In ((name, x), i) (snd (dg_services now g)) <->
     exists me, i = SInfo (si_id i) (request_of me) (response_of me) (grade (request_of me) true) (grade (response_of me) true) /\
               method_alive bct_reg_service bct_unreg_service of_service (samples os) timeout now name x (si_id i) me) /\
  NoDup (map (fun p => (fst p, si_id (snd p))) (snd (dg_services now g))).
Proof. exact services_lemma. Qed.
Print Assumptions c44_services.

Theorem c44_clients :
  forall os timeout now g, upwards (map fst os ++ [now]) -> dg_run os (dg_new timeout) = DOk g ->
  (forall name x i, In ((name, x), i) (snd (dg_clients now g)) <->
     exists me, i = SInfo (si_id i) (request_of me) (response_of me) (grade (request_of me) false) (grade (response_of me) false) /\
               method_alive bct_reg_client bct_unreg_client of_client (samples os) timeout now name x (si_id i) me) /\
  NoDup (map (fun p => (fst p, si_id (snd p))) (snd (dg_clients now g))).
Proof. exact clients_lemma. Qed.
Print Assumptions c44_clients.

Example c44_services_case :
  let m n t := Method (str n) (str t) (str "d") (str "R") [] 0 in
  let os := [(0%Z, DSample (service_sample bct_reg_service (str "h") (str "s") (str "5") [m "add"%string "A"%string; m "sub"%string "A"%string]));
             (1%Z, DSample (service_sample bct_reg_service (str "h") (str "s") (str "6") [m "add"%string "B"%string]));
             (2%Z, DSample (service_sample bct_unreg_service (str "h") (str "s") (str "5") []))] in
  upwards (map fst os ++ [3%Z]) /\
  exists g, dg_run os (dg_new 10) = DOk g /\
    snd (dg_services 3 g) = [((str "s", str "add"), SInfo 6 (DataType (str "B") [] (str "d")) (DataType (str "R") [] []) 11 3)].
Proof. cbv zeta. split; [cbn; lia|]. eexists. split; [vm_compute; reflexivity|]. vm_compute; reflexivity. Qed.

(** C44: for the ids eCAL announces itself (plain decimal numbers of at most 64 bits),
    equal numbers mean equal ids, so entries of different ids are kept apart. *)
Theorem c44_plain_ids :
  (forall a, plain a -> exists n, reads a n) /\
  (forall a b n, plain a -> plain b -> reads a n -> reads b n -> a = b).
Proof. exact (conj (fun a P => ex_intro _ _ (plain_reads a P)) plain_same). Qed.
Print Assumptions c44_plain_ids.
Example c44_plain_case : plain (str "18446744073709551615") /\ plain (str "0") /\ ~ plain (str "007").
Proof.
  split; [|split].
  - repeat split; try discriminate. cbn. repeat constructor; discriminate.
  - repeat split; try discriminate. cbn. repeat constructor; discriminate.
  - intros (_ & _ & _ & H). discriminate.
Qed.

(** C44 is false for other ids: "7" and "7x" are the same entry, and the withdrawal of one
    removes the other. *)
Theorem c44_id_suffix_refuted :
  exists s1 s2 s3 g, sm_entity s1 <> sm_entity s2 /\ sm_entity s3 = sm_entity s2 /\
    sm_cmd s1 = bct_reg_publisher /\ sm_cmd s2 = bct_reg_publisher /\ sm_cmd s3 = bct_unreg_publisher /\
    dg_run [(0%Z, DSample s1); (0%Z, DSample s2); (0%Z, DSample s3)] (dg_new 10) = DOk g /\
    snd (dg_publishers 0 g) = [].
Proof.
  exact (ex_intro _ (topic_sample bct_reg_publisher (str "h") (str "t") (str "7") dt0)
        (ex_intro _ (topic_sample bct_reg_publisher (str "h") (str "t") (str "7x") dt0)
        (ex_intro _ (topic_sample bct_unreg_publisher (str "h") (str "t") (str "7x") dt0)
        (ex_intro _ _ (conj (fun E => eq_ind (str "7") (fun e => match e with [_] => True | _ => False end) Logic.I _ E)
          (conj eq_refl (conj eq_refl (conj eq_refl (conj eq_refl (conj eq_refl eq_refl)))))))))).
Qed.
Print Assumptions c44_id_suffix_refuted.

(** C44 is false across hosts: the host is not part of the key, so two publishers on
    different hosts with the same id share one entry, and the withdrawal of one removes
    the other. *)
Theorem c44_two_hosts_refuted :
  exists s1 s2 s3 g, sm_host s1 <> sm_host s2 /\ sm_host s3 = sm_host s2 /\
    plain (sm_entity s1) /\ sm_entity s2 = sm_entity s1 /\ sm_entity s3 = sm_entity s1 /\
    sm_cmd s1 = bct_reg_publisher /\ sm_cmd s2 = bct_reg_publisher /\ sm_cmd s3 = bct_unreg_publisher /\
    dg_run [(0%Z, DSample s1); (0%Z, DSample s2); (0%Z, DSample s3)] (dg_new 10) = DOk g /\
    snd (dg_publishers 0 g) = [].
Proof. exact two_hosts_lemma. Qed.
Print Assumptions c44_two_hosts_refuted.

(** C44 is false for a method that a service stops offering: it stays listed although the
    latest registration of the service does not contain it. *)
Theorem c44_dropped_method_refuted :
  exists s1 s2 g i, sm_cmd s1 = bct_reg_service /\ sm_cmd s2 = bct_reg_service /\
    sm_entity s1 = sm_entity s2 /\ plain (sm_entity s1) /\ fst (of_service s1) = fst (of_service s2) /\
    ~ In (str "old") (map me_name (snd (of_service s2))) /\
    dg_run [(0%Z, DSample s1); (9%Z, DSample s2)] (dg_new 10) = DOk g /\
    In ((fst (of_service s2), str "old"), i) (snd (dg_services 9 g)).
Proof. exact dropped_method_lemma. Qed.
Print Assumptions c44_dropped_method_refuted.

(** C45: the gate survives a history exactly if every id it has to interpret starts, after
    blanks and a sign, with a number of at most 64 bits; otherwise an exception escapes.
    It never gets into undefined behaviour. *)
Theorem c45_survives_exactly :
  forall os timeout, upwards (map fst os) ->
  ((exists g, dg_run os (dg_new timeout) = DOk g) <->
   (forall t s, In (t, DSample s) os -> needs_id s -> exists n, reads (sm_entity s) n)) /\
  (dg_run os (dg_new timeout) = DThrow \/ exists g, dg_run os (dg_new timeout) = DOk g).
Proof. exact survives_lemma. Qed.
Print Assumptions c45_survives_exactly.

(** C45: the same for one sample in any reachable state. *)
Theorem c45_throws_exactly_partial :
  forall os timeout now g s, upwards (map fst os ++ [now]) -> dg_run os (dg_new timeout) = DOk g ->
  (dg_apply now s g = DThrow <-> needs_id s /\ ~ exists n, reads (sm_entity s) n) /\ dg_apply now s g <> DUB.
Proof. exact throws_lemma. Qed.
Print Assumptions c45_throws_exactly_partial.

Example c45_case :
  reads (str "  -1 and more") 18446744073709551615 /\
  dg_run [(0%Z, DSample (topic_sample bct_reg_publisher (str "h") (str "t") (str "x1") dt0))] (dg_new 10) = DThrow.
Proof. split; [apply stoull_reads|]; vm_compute; reflexivity. Qed.

(** C45 is false: there is a message that decodes to a sample, passes the filters of every
    process with network communication, and makes applying it throw in every state; the id
    is empty in one such message and a number of 65 bits in another. *)
Theorem c45_crash_refuted :
  forall e, In e [str ""; str "18446744073709551616"; str "topic"] ->
  exists bytes s, de_sample bytes = Ok s /\ sm_entity s = e /\
    (forall a, ap_network a = true -> ap_group a <> str "elsewhere" -> fst (ap_apply a s) = true) /\
    (forall now g, dg_apply now s g = DThrow).
Proof. exact crash_lemma. Qed.
Print Assumptions c45_crash_refuted.

(** C60: for every topic, the reported topics contain it exactly if a live publisher or
    subscriber exists; the reported description is the best one, and the two functions
    that report it agree. *)
Theorem c60_topics :
  forall os timeout now g, upwards (map fst os ++ [now]) -> dg_run os (dg_new timeout) = DOk g ->
  forall n, let pubs := snd (dg_publishers now g) in let subs := snd (dg_subscribers now g) in
    match aget n (ut_topics pubs subs) with
    | Some i => best_topic_of i n (pubs ++ subs)
    | None => forall i, ~ In (n, i) (pubs ++ subs)
    end /\
    ut_type_info n pubs subs = (match aget n (ut_topics pubs subs) with Some i => (true, ti_info i) | None => (false, dt0) end).
Proof. exact topics_lemma. Qed.
Print Assumptions c60_topics.

(** C60: the reported names, each once. *)
Theorem c60_topic_names :
  forall pubs subs, NoDup (ut_topic_names pubs subs) /\
    forall n, In n (ut_topic_names pubs subs) <-> exists i, In (n, i) (pubs ++ subs).
Proof. exact (fun p s => conj (sorted_nodup _ (proj1 (topic_names_lemma p s))) (proj2 (topic_names_lemma p s))). Qed.
Print Assumptions c60_topic_names.

Example c60_case :
  let pubs := [(str "t", TInfo 7 (DataType (str "T") [] []) 3); (str "t", TInfo 9 (DataType (str "T") (str "proto") (str "d")) 15)] in
  let subs := [(str "t", TInfo 8 (DataType (str "T") (str "proto") (str "d")) 14); (str "u", TInfo 8 dt0 0)] in
  ut_type_info (str "t") pubs subs = (true, DataType (str "T") (str "proto") (str "d")) /\
  ut_type_info (str "u") pubs subs = (true, dt0) /\ fst (ut_type_info (str "v") pubs subs) = false /\
  ut_topic_names pubs subs = [str "t"; str "u"].
Proof. repeat split; vm_compute; reflexivity. Qed.

(** C60, methods of services and clients: found exactly if there is a live entry; what is
    reported is the description of a live entry; if one entry is at least as good as every
    other in the request and in the response, one of that quality is reported. *)
Theorem c60_methods_partial :
  forall os timeout now g, upwards (map fst os ++ [now]) -> dg_run os (dg_new timeout) = DOk g ->
  forall l n, l = snd (dg_services now g) \/ l = snd (dg_clients now g) ->
    ((fst (ut_method_info n l) = true <-> exists i, In (n, i) l) /\
     (fst (ut_method_info n l) = true -> exists i, In (n, i) l /\ si_req (snd (ut_method_info n l)) = si_req i /\
        si_resp (snd (ut_method_info n l)) = si_resp i) /\
     (forall b, best_method_of b n l -> si_reqq (snd (ut_method_info n l)) = si_reqq b /\ si_respq (snd (ut_method_info n l)) = si_respq b)) /\
    match aget n (ut_services l) with
    | Some i => In (n, i) l /\ forall b, best_method_of b n l -> si_reqq i = si_reqq b /\ si_respq i = si_respq b
    | None => forall i, ~ In (n, i) l
    end.
Proof. exact methods_lemma. Qed.
Print Assumptions c60_methods_partial.

(** C60 is false for methods in general: one live service describes the response fully, but
    an incomplete description of another one is reported; and the two functions that
    report the same method disagree. *)
Theorem c60_response_lost_refuted :
  exists os g n i, upwards (map fst os ++ [0%Z]) /\ dg_run os (dg_new 10) = DOk g /\
    let l := snd (dg_services 0 g) in
    In (n, i) l /\ given (dt_desc (si_resp i)) = true /\
    fst (ut_method_info n l) = true /\ si_resp (snd (ut_method_info n l)) = dt0.
Proof. exact response_lost_lemma. Qed.
Print Assumptions c60_response_lost_refuted.

Theorem c60_methods_disagree_refuted :
  exists os g n i, upwards (map fst os ++ [0%Z]) /\ dg_run os (dg_new 10) = DOk g /\
    let l := snd (dg_services 0 g) in
    aget n (ut_services l) = Some i /\ si_req (snd (ut_method_info n l)) <> si_req i.
Proof. exact methods_disagree_lemma. Qed.
Print Assumptions c60_methods_disagree_refuted.
