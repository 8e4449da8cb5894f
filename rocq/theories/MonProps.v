(** Property C46: entries and filters of the monitoring. *)
From Verif Require Import Base Sample SerModel DscModel DscSpec MonModel MonSpec MonProofs.

(** C46: after every history of samples, listings and filter changes with well-formed
    patterns, a listing has, for each kind asked for, exactly one entry per label whose
    latest accepted registration is not withdrawn and not older than the timeout; it shows
    that registration and the number of registrations since the label was unknown.  Kinds
    not asked for are empty.  Registrations of topics are accepted exactly if the patterns in
    force select the topic. *)
Theorem c46_listing :
  forall compile excl0 incl0 timeout os now ents, upwards (map fst os ++ [now]) -> good_patterns compile excl0 incl0 os ->
  exists m, mon_run compile os (mon_create timeout excl0 incl0) = DOk m /\
    let l := snd (mon_get now ents m) in
    let labelled k x := known compile excl0 incl0 k timeout (fun s => label k s = x) os in
    (asked KProcess ents -> lists (labelled KProcess) shows_process (now - timeout) (mn_processes l)) /\
    (asked KPublisher ents -> lists (labelled KPublisher) (shows_topic (str "publisher")) (now - timeout) (mn_publisher l)) /\
    (asked KSubscriber ents -> lists (labelled KSubscriber) (shows_topic (str "subscriber")) (now - timeout) (mn_subscriber l)) /\
    (asked KServer ents -> lists (labelled KServer) shows_server (now - timeout) (mn_server l)) /\
    (asked KClient ents -> lists (labelled KClient) shows_client (now - timeout) (mn_clients l)) /\
    (~ asked KProcess ents -> mn_processes l = []) /\ (~ asked KPublisher ents -> mn_publisher l = []) /\
    (~ asked KSubscriber ents -> mn_subscriber l = []) /\ (~ asked KServer ents -> mn_server l = []) /\
    (~ asked KClient ents -> mn_clients l = []).
Proof. exact listings. Qed.
Print Assumptions c46_listing.

(** Topic "a" is registered twice, "b" is excluded, "c" is admitted once the filter is off,
    "d" times out, process "p" is withdrawn. *)
Definition c46_history : list (Z * mop) :=
  [(0%Z, MSample (somebody bct_reg_publisher (str "h") 3 (str "d") (str "7")));
   (1%Z, MSample (somebody bct_reg_process (str "h") 3 (str "p") []));
   (2%Z, MSample (somebody bct_reg_publisher (str "h") 3 (str "b") (str "8")));
   (3%Z, MSample (somebody bct_reg_publisher (str "h") 3 (str "a") (str "9")));
   (4%Z, MSample (somebody bct_reg_service (str "h") 3 (str "s") (str "5")));
   (5%Z, MState false);
   (6%Z, MSample (somebody bct_reg_publisher (str "h") 3 (str "a") (str "9")));
   (7%Z, MSample (somebody bct_reg_publisher (str "h") 3 (str "c") (str "6")));
   (8%Z, MSample (somebody bct_unreg_process (str "h") 3 (str "p") []))].
Example c46_case :
  upwards (map fst c46_history ++ [12%Z]) /\ good_patterns literal (str "B;c") [] c46_history /\
  orderly KPublisher c46_history /\
  exists m, mon_run literal c46_history (mon_create 10 (str "B;c") []) = DOk m /\
    let l := snd (mon_get 12 63 m) in
    map (fun e => (tp_tname (snd e), tp_rclock (snd e))) (mn_publisher l) = [(str "a", 2%Z); (str "c", 1%Z)] /\
    mn_processes l = [] /\ number_of KServer l = 1%nat.
Proof.
  split; [cbn; lia|]. split; [apply literal_good|]. split.
  - assert (forall c, 97 <= c <= 122 -> ~ ends_in_digit [c])%Z as N.
    { intros c B (a & d & E & D). change [c] with ([] ++ [c]) in E. apply app_inj_tail in E as [_ <-]. lia. }
    split.
    + intros t s H O. cbn in H. unfold of_kind in O.
      repeat (destruct H as [H|H]; [injection H as <- <- || discriminate; cbn in O; try (destruct O; discriminate)|]); try destruct H;
        (split; [apply N; lia|]; split; [repeat constructor; lia|cbn; lia]).
    + intros t s t' s' H H' O O'. cbn in H, H'. unfold of_kind in O, O'.
      repeat (destruct H as [H|H]; [injection H as <- <- || discriminate; cbn in O; try (destruct O; discriminate)|]); try destruct H;
      repeat (destruct H' as [H'|H']; [injection H' as <- <- || discriminate; cbn in O'; try (destruct O'; discriminate)|]); try destruct H';
        cbn; auto.
  - eexists. split; [vm_compute; reflexivity|]. repeat split.
Qed.

(** C46: if names do not end in a digit, ids are numbers, all processes and services are on
    one host, ids of services have equal length, and equal ids of topics belong to one
    process, then there is exactly one entry per host, process id, name and id. *)
Theorem c46_own_entries_partial :
  forall compile excl0 incl0 timeout os now ents, upwards (map fst os ++ [now]) -> good_patterns compile excl0 incl0 os ->
  exists m, mon_run compile os (mon_create timeout excl0 incl0) = DOk m /\
    let l := snd (mon_get now ents m) in
    let who_is k w := known compile excl0 incl0 k timeout (fun s => who k s = w) os in
    (asked KProcess ents -> orderly KProcess os -> lists (who_is KProcess) shows_process (now - timeout) (mn_processes l)) /\
    (asked KPublisher ents -> orderly KPublisher os -> lists (who_is KPublisher) (shows_topic (str "publisher")) (now - timeout) (mn_publisher l)) /\
    (asked KSubscriber ents -> orderly KSubscriber os -> lists (who_is KSubscriber) (shows_topic (str "subscriber")) (now - timeout) (mn_subscriber l)) /\
    (asked KServer ents -> orderly KServer os -> lists (who_is KServer) shows_server (now - timeout) (mn_server l)) /\
    (asked KClient ents -> orderly KClient os -> lists (who_is KClient) shows_client (now - timeout) (mn_clients l)).
Proof. exact own_entries_lemma. Qed.
Print Assumptions c46_own_entries_partial.

(** C46 is false across hosts, for every kind: of two entities that differ in the host only
    one is shown, and the withdrawal of one removes the other. *)
Theorem c46_hosts_refuted :
  forall compile k, exists s1 s2 m, sm_host s1 <> sm_host s2 /\ sm_pid s1 = sm_pid s2 /\ called k s1 = called k s2 /\ id_of k s1 = id_of k s2 /\
    sm_cmd s1 = announces k /\ sm_cmd s2 = announces k /\
    mon_run compile [(0%Z, MSample s1); (0%Z, MSample s2)] (mon_create 10 [] []) = DOk m /\
    number_of k (snd (mon_get 0 63 m)) = 1%nat.
Proof. exact hosts_lemma. Qed.
Print Assumptions c46_hosts_refuted.
Theorem c46_hosts_withdraw_refuted :
  forall compile k, exists s1 s2 m, sm_host s1 <> sm_host s2 /\ sm_cmd s1 = announces k /\ sm_cmd s2 = withdraws k /\
    mon_run compile [(0%Z, MSample s1); (0%Z, MSample s2)] (mon_create 10 [] []) = DOk m /\
    number_of k (snd (mon_get 0 63 m)) = 0%nat.
Proof. exact hosts_withdraw_lemma. Qed.
Print Assumptions c46_hosts_withdraw_refuted.

(** C46 is false on one host, for every kind: a name ending in a digit runs into the id or
    process id, so entities with different names share an entry. *)
Theorem c46_names_refuted :
  forall compile k, exists s1 s2 m, sm_host s1 = sm_host s2 /\ called k s1 <> called k s2 /\ (sm_pid s1, id_of k s1) <> (sm_pid s2, id_of k s2) /\
    sm_cmd s1 = announces k /\ sm_cmd s2 = announces k /\
    mon_run compile [(0%Z, MSample s1); (0%Z, MSample s2)] (mon_create 10 [] []) = DOk m /\
    number_of k (snd (mon_get 0 63 m)) = 1%nat.
Proof. exact joined_lemma. Qed.
Print Assumptions c46_names_refuted.
(** The same for services of one name: id and process id run together. *)
Theorem c46_service_ids_refuted :
  forall compile k, k = KServer \/ k = KClient ->
  exists s1 s2 m, sm_host s1 = sm_host s2 /\ called k s1 = called k s2 /\ ~ ends_in_digit (called k s1) /\
    sm_entity s1 <> sm_entity s2 /\ sm_pid s1 <> sm_pid s2 /\
    sm_cmd s1 = announces k /\ sm_cmd s2 = announces k /\
    mon_run compile [(0%Z, MSample s1); (0%Z, MSample s2)] (mon_create 10 [] []) = DOk m /\
    number_of k (snd (mon_get 0 63 m)) = 1%nat.
Proof. exact joined_service_lemma. Qed.
Print Assumptions c46_service_ids_refuted.

(** C46: with well-formed patterns, a topic is admitted exactly if the configured lists
    select it while the filters are not touched, exactly if the lists then in place select
    it once the filters were switched off and on again, and always while they are off. *)
Theorem c46_filters_partial :
  forall compile excl0 incl0 timeout os now name, upwards (map fst os ++ [now]) -> good_patterns compile excl0 incl0 os ->
  exists m b, mon_run compile os (mon_create timeout excl0 incl0) = DOk m /\ admit compile name m = DOk b /\
    (no_state os -> (b = true <-> selects compile (listed_pattern excl0) (listed_pattern incl0) name)) /\
    (forall h0 t0 h1 t1 h2, os = h0 ++ (t0, MState false) :: h1 ++ (t1, MState true) :: h2 -> no_state h1 -> no_state h2 ->
       let h := h0 ++ (t0, MState false) :: h1 in
       (b = true <-> selects compile (listed_pattern (current set_excl_of excl0 h)) (listed_pattern (current set_incl_of incl0 h)) name)) /\
    (forall h0 t0 h1, os = h0 ++ (t0, MState false) :: h1 -> no_state h1 -> b = true).
Proof. exact filters_lemma. Qed.
Print Assumptions c46_filters_partial.
Example c46_filters_case :
  listed_pattern (str "x,;a b;") (str "a b") /\ ~ listed_pattern (str "x,;a b;") [] /\
  (exists m, mon_run literal [(0%Z, MState false); (1%Z, MIncl (str "x,;a b;")); (2%Z, MExcl (str "X")); (3%Z, MState true); (4%Z, MExcl [])]
     (mon_create 10 (str "a b") []) = DOk m /\
   admit literal (str "A B") m = DOk true /\ admit literal (str "x") m = DOk false /\ admit literal (str "y") m = DOk false).
Proof.
  split; [|split].
  - exists (str "x,;"), (str ";"). split; [reflexivity|]. split; [discriminate|].
    split; [apply Forall_forall; intros c H; vm_compute in H; unfold delim; lia|]. split.
    + right. exists (str "x,"), 59%Z. split; [reflexivity|right; reflexivity].
    + right. exists 59%Z, []. split; [reflexivity|right; reflexivity].
  - intros (a & b & _ & N & _). congruence.
  - eexists. split; [vm_compute; reflexivity|]. repeat split.
Qed.

(** C46 is false for filters changed while they are on: the patterns of the old list stay in
    force. *)
Theorem c46_stale_filter_refuted :
  forall compile f g, compile (str "a") = Some f -> compile (str "b") = Some g -> f (str "a") = true -> g (str "a") = false ->
  let os := [(0%Z, MExcl (str "b")); (0%Z, MState true)] in
  selects compile (listed_pattern (current set_excl_of (str "a") os)) (listed_pattern (current set_incl_of [] os)) (str "a") /\
  exists m, mon_run compile os (mon_create 10 (str "a") []) = DOk m /\ admit compile (str "a") m = DOk false.
Proof. exact stale_filter_lemma. Qed.
Print Assumptions c46_stale_filter_refuted.
Example c46_stale_filter_case : exists f g, literal (str "a") = Some f /\ literal (str "b") = Some g /\ f (str "a") = true /\ g (str "a") = false.
Proof. do 2 eexists. repeat split. Qed.
(** C46 is false for patterns that differ only in case: the second one is dropped, although
    \d and \D mean opposite things. *)
Theorem c46_case_filter_refuted :
  forall compile f g, compile (str "\d+") = Some f -> compile (str "\D+") = Some g -> f (str "abc") = false -> g (str "abc") = true ->
  selects compile (listed_pattern []) (listed_pattern (str "\d+,\D+")) (str "abc") /\
  admit compile (str "abc") (mon_create 10 [] (str "\d+,\D+")) = DOk false.
Proof. exact case_filter_lemma. Qed.
Print Assumptions c46_case_filter_refuted.
Example c46_case_filter_case :
  let compile p := if eqb p (str "\d+") then Some (forallb is_digit) else if eqb p (str "\D+") then Some (forallb (fun c => negb (is_digit c))) else None in
  exists f g, compile (str "\d+") = Some f /\ compile (str "\D+") = Some g /\ f (str "abc") = false /\ g (str "abc") = true.
Proof. do 2 eexists. repeat split. Qed.
(** C46 is false for a pattern with a comma: it is cut into pieces, one of which is not a
    regular expression, and the first registration of a topic terminates the process. *)
Theorem c46_comma_filter_refuted :
  forall compile s now, compile (str "a{1") = None -> (forall f, compile (str "3}") = Some f -> f (tp_tname (sm_topic s)) = false) ->
  sm_cmd s = bct_reg_publisher \/ sm_cmd s = bct_reg_subscriber ->
  mon_run compile [(now, MSample s)] (mon_create 10 [] (str "a{1,3}")) = DThrow /\
  mon_run compile [(now, MSample s)] (mon_create 10 (str "a{1,3}") []) = DThrow.
Proof. exact comma_filter_lemma. Qed.
Print Assumptions c46_comma_filter_refuted.
