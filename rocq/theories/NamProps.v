(** C107: the names of the objects in shared memory. *)
From Verif Require Import Base Sample NamModel NamSpec NamProofs.
From Verif Require MonModel.

(** Two objects have the same name in the name space of the host exactly if they are the same
    object, whatever numbers are drawn and whatever the process ids: memory files, their mutexes
    and the events never meet.  Partial: the domains must keep clear of the names of publishers'
    files and of each other, see c107_reserved_refuted and c107_nested_refuted. *)
Theorem c107_distinct_partial D o u k : good_domains D -> object_ok D o -> object_ok D u ->
  shm_key (open_name o) = Some k -> (shm_key (open_name u) = Some k <-> same_object o u).
Proof. exact (distinct_lemma D o u k). Qed.
Print Assumptions c107_distinct_partial.
Example c107_distinct_partial_ex : good_domains nx_domains /\ Forall (object_ok nx_domains) nx_objects /\
  shm_key (open_name (TheAck 26 4711)) = Some (str "ecal_1a_4711_ack_evt") /\ shm_key (open_name (TheGuard (TopicFile 26))) = Some (str "ecal_1a_mtx") /\
  shm_key (open_name (TheFile (PayloadFile (str "/test") 12))) = Some (str "test_12").
Proof.
  split; [exact nx_good|]. split; [|repeat split; reflexivity].
  repeat apply Forall_cons; try apply Forall_nil; cbn; unfold drawable, a_pid, an_id; intuition lia.
Qed.

(** Opening an object therefore finds it, and not something else, if it was opened by anybody and
    not removed since; otherwise it is made anew.  Partial as above. *)
Theorem c107_opened_partial D l o : good_domains D -> acts_ok D l -> object_ok D o -> shm_key (open_name o) <> None ->
  let a := snd (n_step (NOpen o) (fst (n_run l []))) in
  (there l o -> exists u, a = NFound u /\ same_object o u) /\ (~ there l o -> a = NMade).
Proof. exact (opened_lemma D l o). Qed.
Print Assumptions c107_opened_partial.
Example c107_opened_partial_ex : acts_ok nx_domains nx_run /\
  snd (n_run nx_run []) = [NMade; NMade; NMade; NMade; NMade; NMade; NMade; NGone; NFound (TheAck 26 4711); NMade].
Proof. split; [exact nx_ok|reflexivity]. Qed.

(** A domain may be named like a publisher's file: then the registration of that domain and the
    publisher share one memory file. *)
Theorem c107_reserved_refuted : exists d o u, good_domains [str "ecal_mon"] /\ object_ok [d] o /\ object_ok [d] u /\ ~ same_object o u /\
  shm_key (open_name o) = shm_key (open_name u) /\ snd (n_run [NOpen o; NOpen u] []) = [NMade; NFound o].
Proof. exact reserved_refuted. Qed.
Print Assumptions c107_reserved_refuted.

(** The broadcast file of one domain may have the name of a payload file of another. *)
Theorem c107_nested_refuted : exists d e i, ~ same_domain d e /\ an_id i /\
  open_name (TheFile (PayloadFile d i)) = open_name (TheFile (DomainFile e)) /\ open_name (TheGuard (PayloadFile d i)) = open_name (TheGuard (DomainFile e)).
Proof.
  exists (str "test"), (str "test_12"), 12%Z. split; [|split; [unfold an_id; lia|split; reflexivity]].
  intros H. apply same_domain_iff in H. discriminate.
Qed.
Print Assumptions c107_nested_refuted.

(** The names of all objects of publishers can be opened. *)
Theorem c107_valid D o : of_publisher o -> object_ok D o -> shm_key (open_name o) <> None.
Proof. intros P K. rewrite (publisher_key_lemma D o P K). discriminate. Qed.
Print Assumptions c107_valid.
Example c107_valid_ex : of_publisher (TheAck 4294967295 2147483647) /\
  shm_key (open_name (TheAck 4294967295 2147483647)) = Some (str "ecal_ffffffff_2147483647_ack_evt").
Proof. split; [exact Logic.I|reflexivity]. Qed.

(** So can those of a domain, if its name is short and has no slash inside.  Partial: see
    c107_long_refuted. *)
Theorem c107_domain_valid_partial d b i f : bare d b -> b <> [] -> ~ In 47%Z b -> length b < 230 -> an_id i ->
  In f [DomainFile d; PayloadFile d i] -> shm_key (open_name (TheFile f)) <> None /\ shm_key (open_name (TheGuard f)) <> None.
Proof. exact (domain_key_lemma d b i f). Qed.
Print Assumptions c107_domain_valid_partial.
Example c107_domain_valid_partial_ex : bare (str "/ecal_mon") (str "ecal_mon") /\ ~ In 47%Z (str "ecal_mon").
Proof. split; [apply bare_iff; reflexivity|]. intros H. vm_compute in H. intuition congruence. Qed.

(** A domain with a long name gets its broadcast file, but no process ever gets a payload file:
    nobody is registered, and nothing is reported. *)
Theorem c107_long_refuted : exists d, shm_key (open_name (TheFile (DomainFile d))) <> None /\ shm_key (open_name (TheGuard (DomainFile d))) <> None /\
  forall i, an_id i -> (1000000000 <= i)%Z -> shm_key (open_name (TheFile (PayloadFile d i))) = None.
Proof. exact long_domain_lemma. Qed.
Print Assumptions c107_long_refuted.

(** Two publishers' files have the same name exactly if the same number was drawn for both. *)
Theorem c107_draw b r r' : drawable r -> drawable r' -> (random_name b r = random_name b r' <-> r = r').
Proof. exact (draw_lemma b r r'). Qed.
Print Assumptions c107_draw.
Example c107_draw_ex : drawable 4294967295 /\ random_name topic_base 4294967295 = str "ecal_ffffffff" /\ random_name topic_base 0 = str "ecal_0".
Proof. split; [unfold drawable; lia|split; reflexivity]. Qed.

(** Nothing prevents that: the second publisher finds the file of the first and takes it for its
    own. *)
Theorem c107_draw_refuted : exists r, drawable r /\
  snd (n_run [NOpen (TheFile (TopicFile r)); NOpen (TheFile (TopicFile r))] []) = [NMade; NFound (TheFile (TopicFile r))] /\
  sf_name (sf_new topic_base r true) = file_name (TopicFile r) /\ sf_made (sf_new topic_base r true) = true.
Proof. exists 7%Z. split; [unfold drawable; lia|repeat split; reflexivity]. Qed.
Print Assumptions c107_draw_refuted.

(** A host has no more than 2^32 publishers' files with names of their own. *)
Theorem c107_limit b rs : Forall drawable rs -> NoDup (map (random_name b) rs) -> (Z.of_nat (length rs) <= 2 ^ 32)%Z.
Proof. exact (limit_lemma b rs). Qed.
Print Assumptions c107_limit.
Example c107_limit_ex : Forall drawable [1%Z; 16%Z; 17%Z] /\ NoDup (map (random_name topic_base) [1%Z; 16%Z; 17%Z]).
Proof. split; [repeat apply Forall_cons; try apply Forall_nil; unfold drawable; lia|]. repeat constructor; vm_compute; intuition congruence. Qed.

(** The name of a file does not determine the base name and the number it was built from. *)
Theorem c107_base_refuted : exists b r b' r', drawable r /\ drawable r' /\ b <> b' /\ r <> r' /\ random_name b r = random_name b' r'.
Proof. exists (str "ecal_"), 26%Z, (str "ecal_1"), 10%Z. unfold drawable. repeat split; try lia; discriminate. Qed.
Print Assumptions c107_base_refuted.

(** The payload files of two processes that read the same time when they start are one file. *)
Theorem c107_clock_refuted : exists d i, good_domains [d] /\ an_id i /\
  snd (n_run [NOpen (TheFile (DomainFile d)); NOpen (TheFile (PayloadFile d i)); NOpen (TheFile (PayloadFile d i))] []) =
    [NMade; NMade; NFound (TheFile (PayloadFile d i))].
Proof.
  exists (str "ecal_mon"), 1234567890%Z. split; [|split; [unfold an_id; lia|reflexivity]].
  apply (good_one _ (str "ecal_mon")); [apply bare_iff; reflexivity|discriminate|not_reserved].
Qed.
Print Assumptions c107_clock_refuted.

(** Whatever happened to a publisher's file, while it has one it is called by the number drawn
    last, and a process that is connected gets the very events which it opens itself from the name
    of the file that the publisher now tells. *)
Theorem c107_name r ok l : let s := sf_run l (sf_new topic_base r ok) in
  sf_made s = alive l ok /\ (alive l ok = true -> sf_name s = file_name (TopicFile (drawn l r))).
Proof. exact (name_lemma r ok l). Qed.
Print Assumptions c107_name.
Example c107_name_ex : alive nx_life true = true /\ sf_name (sf_run nx_life (sf_new topic_base 26 true)) = str "ecal_ff".
Proof. split; reflexivity. Qed.

Theorem c107_meet r ok l pid : let s := sf_run l (sf_new topic_base r ok) in
  aget (MonModel.int_text pid) (sf_conn s) =
    if alive l ok && joined (MonModel.int_text pid) l false
    then Some (observer_snd (reader_event (sf_name s) pid), observer_ack (reader_event (sf_name s) pid)) else None.
Proof. exact (meet_lemma r ok l pid). Qed.
Print Assumptions c107_meet.
Example c107_meet_ex : joined (MonModel.int_text 12) nx_life false = true /\ joined (MonModel.int_text 11) nx_life false = false /\
  aget (MonModel.int_text 12) (sf_conn (sf_run nx_life (sf_new topic_base 26 true))) = Some (str "ecal_ff_12", str "ecal_ff_12_ack").
Proof. repeat split; reflexivity. Qed.

(** A publisher whose file cannot be made anew stays without a file for ever and keeps telling the
    name of the file it did not get. *)
Theorem c107_failed_refuted : exists r r', forall l', let s := sf_run (SRemake r' false :: l') (sf_new topic_base r true) in
  sf_made s = false /\ sf_conn s = [] /\ sf_name s = file_name (TopicFile r').
Proof. exists 26%Z, 27%Z. intros l'. exact (failed_lemma 26 true [] 27 l' eq_refl). Qed.
Print Assumptions c107_failed_refuted.
