(** C108: the deserializers of the dynamic subscribers and their exceptions. *)
From Verif Require Import Base Sample DynModel DynSpec DynProofs DjsModel DjsSpec DjsProofs.
Import ListNotations.

(** The JSON deserializer finds a type by its full name, nested types too, if no file in front of the type's own begins
    with a type of the same short name. *)
Theorem c108_json_right_partial json a g r t n b : orderly (a ++ g :: r) -> In t (types_of g) -> ends_in (qualified t) n ->
  (forall h, In h a -> hd_error (fp_top h) <> Some n) ->
  json_after json [] (qualified t, a ++ g :: r) b = match json t b with Some y => OMessage (t, y) | None => OOther end.
Proof. exact (json_right json a g r t n b). Qed.
Print Assumptions c108_json_right_partial.

Example c108_json_right_ex :
  orderly [outer_p] /\ In (outer_p, str "Outer.Inner") (types_of outer_p) /\ ends_in (str "p.Outer.Inner") (str "Inner") /\
  json_after plain_json [] inner_info [1%Z] = OMessage ((outer_p, str "Outer.Inner"), [1%Z]) /\
  json_after plain_json [] pose_info [1%Z] = OMessage ((pose_b, str "Pose"), [1%Z]).
Proof.
  split; [exact (orderly_one outer_p eq_refl)|]. split; [right; left; reflexivity|]. split.
  - split; [split; [discriminate|vm_compute; intuition discriminate]|]. split; [exists 73%Z; split; [left; reflexivity|discriminate]|].
    right. exists (str "p.Outer"). reflexivity.
  - split; vm_compute; reflexivity.
Qed.

(** If an earlier file begins with a type of the same short name, the JSON deserializer never loads the file of the type
    and leaves by an exception which is not a DynamicReflectionException but a pointer to one. *)
Theorem c108_json_same_name_refuted json a h b' g t n b : orderly (a ++ [h] ++ b') -> In g b' -> In t (types_of g) -> ends_in (qualified t) n ->
  hd_error (fp_top h) = Some n -> (forall k, In k a -> hd_error (fp_top k) <> Some n) ->
  json_after json [] (qualified t, a ++ [h] ++ b') b = OOther.
Proof. exact (json_wrong json a h b' g t n b). Qed.
Print Assumptions c108_json_same_name_refuted.

Example c108_json_same_name_ex : orderly [pose_a; pose_b] /\ json_after plain_json [] (str "b.Pose", [pose_a; pose_b]) [1%Z] = OOther.
Proof. split; [exact (proj1 pose_orderly)|vm_compute; reflexivity]. Qed.

(** A type information for which a message was decoded is decoded with the same type ever after. *)
Theorem c108_json_stable json hs i b t y ks b' : json_after json hs i b = OMessage (t, y) ->
  json_after json (hs ++ (i, b) :: ks) i b' = match json t b' with Some z => OMessage (t, z) | None => OOther end.
Proof. exact (json_stable json hs i b t y ks b'). Qed.
Print Assumptions c108_json_stable.

Example c108_json_stable_ex : json_after plain_json [(pose_info, [1%Z]); (inner_info, [2%Z])] pose_info [3%Z] = OMessage ((pose_b, str "Pose"), [3%Z]).
Proof. vm_compute. reflexivity. Qed.

(** The JSON deserializer decodes every later type information of the same type name with the first type, whatever its
    descriptor says. *)
Theorem c108_json_changed_refuted json hs i b t y ks j b' u z : json_after json hs i b = OMessage (t, y) ->
  json_after json (hs ++ (i, b) :: ks) j b' = OMessage (u, z) -> fst j = fst i -> u = t.
Proof. exact (json_changed json hs i b t y ks j b' u z). Qed.
Print Assumptions c108_json_changed_refuted.

Example c108_json_changed_ex : inside_1 <> inside_2 /\
  json_after plain_json [((str "p.Msg", [inside_1]), [])] (str "p.Msg", [inside_2]) [1%Z] = OMessage ((inside_1, str "Msg"), [1%Z]).
Proof. split; [discriminate|vm_compute; reflexivity]. Qed.

(** In the JSON deserializer a type without package hides those of the same name in packages: after Msg the type p.Msg is not found. *)
Theorem c108_json_hidden_refuted : ~ (forall json hs g t n b y, orderly [g] -> In t (types_of g) -> ends_in (qualified t) n -> json t b = Some y ->
  json_after json hs (qualified t, [g]) b = OMessage (t, y)).
Proof.
  intros H. assert (E : ends_in (qualified (inside_1, str "Msg")) (str "Msg")).
  { split; [split; [discriminate|vm_compute; intuition discriminate]|]. split; [exists 77%Z; split; [left; reflexivity|discriminate]|].
    right. exists (str "p"). reflexivity. }
  specialize (H plain_json [((str "Msg", [plain_1]), [])] inside_1 (inside_1, str "Msg") (str "Msg") [1%Z] [1%Z] (orderly_one inside_1 eq_refl)
    (or_introl eq_refl) E eq_refl). vm_compute in H. discriminate.
Qed.
Print Assumptions c108_json_hidden_refuted.

(** The exception the subscriber expects is thrown exactly for type informations without name or descriptor; nothing is
    remembered of them. *)
Theorem c108_json_reflection json hs i b : (json_after json hs i b = OReflection <-> vacuous i) /\
  (vacuous i -> fst (json_deserialize json (json_run json hs) i b) = json_run json hs).
Proof. exact (conj (json_reflection json hs i b) (json_vacuous_forgotten json hs i b)). Qed.
Print Assumptions c108_json_reflection.

Example c108_json_reflection_ex : vacuous (str "p.", [outer_p]) /\ json_after plain_json [(inner_info, [])] (str "p.", [outer_p]) [1%Z] = OReflection /\
  ~ vacuous inner_info.
Proof.
  split; [right; right; left; exists (str "p"); reflexivity|]. split; [vm_compute; reflexivity|]. rewrite vacuous_spec. vm_compute. intuition discriminate.
Qed.

(** The deserializer of protobuf messages gives a message exactly when the decoder (C101) knows the type, and the expected
    exception otherwise. *)
Theorem c108_proto_answer parse hs i b : proto_after parse hs i b =
  match answer_after false (map fst hs) i with DMessage t => OMessage (t, fst (parse t b)) | _ => OReflection end.
Proof. exact (proto_answer parse hs i b). Qed.
Print Assumptions c108_proto_answer.

Example c108_proto_answer_ex : proto_after plain_parse [] pose_info [1%Z] = OMessage ((pose_b, str "Pose"), [1%Z]) /\
  proto_after plain_parse [] inner_info [1%Z] = OReflection.
Proof. split; vm_compute; reflexivity. Qed.

(** Bytes that are no message of the type are handed to the callback of a dynamic protobuf subscriber as well: it gets what
    was parsed before the fault. *)
Theorem c108_proto_garbage_refuted : ~ (forall parse hs i b t y, proto_after parse hs i b = OMessage (t, y) -> parse t b = (y, true)).
Proof. intros H. specialize (H plain_parse [] pose_info [255%Z; 3%Z] (pose_b, str "Pose") [3%Z] eq_refl). vm_compute in H. discriminate. Qed.
Print Assumptions c108_proto_garbage_refuted.

(** The Cap'n Proto deserializer does not load the schema of a type information it does not know, only of those it
    knows: the first readable message of each type information ends in an exception, whatever it is. *)
Theorem c108_capnp_first_refuted so up wo hs i b : (forall b', In (i, b') hs -> wo b' = None) -> capnp_after so up wo hs i b = OOther.
Proof. exact (capnp_first so up wo hs i b). Qed.
Print Assumptions c108_capnp_first_refuted.

Example c108_capnp_first_ex : capnp_after book_schema newest plain_words [] book_info [1%Z] = OOther /\
  capnp_after book_schema newest plain_words [(book_info, [255%Z])] book_info [1%Z] = OOther /\
  capnp_after book_schema newest plain_words [(book_info, [1%Z])] book_info [1%Z] = OMessage (book, [1%Z]).
Proof. repeat split; vm_compute; reflexivity. Qed.

(** The later ones are decoded by the struct the descriptor names, if all have the same type information. *)
Theorem c108_capnp_later_partial so up wo hs (i : cinfo) b ns n : (forall h, In h hs -> fst h = i) -> (exists b', In (i, b') hs /\ wo b' <> None) ->
  so (snd i) = Some (cn_id n, ns) -> (forall x y, In x ns -> In y ns -> cn_id x = cn_id y -> x = y) -> In n ns -> cn_struct n = true -> wo b <> None ->
  capnp_after so up wo hs i b = OMessage (n, b).
Proof. exact (capnp_later so up wo hs i b ns n). Qed.
Print Assumptions c108_capnp_later_partial.

Example c108_capnp_later_ex : book_schema (snd book_info) = Some (cn_id book, [person; book]) /\
  capnp_after book_schema newest plain_words [(book_info, [1%Z]); (book_info, [2%Z])] book_info [3%Z] = OMessage (book, [3%Z]).
Proof. split; vm_compute; reflexivity. Qed.

(** Its builder keeps the memory of all messages. *)
Theorem c108_capnp_memory so up wo hs : cs_words (capnp_run so up wo hs) = total wo (map snd hs).
Proof. exact (capnp_words so up wo hs). Qed.
Print Assumptions c108_capnp_memory.

Example c108_capnp_memory_ex : cs_words (capnp_run book_schema newest plain_words [(book_info, [1%Z; 2%Z]); (book_info, [255%Z]); (book_info, [3%Z])]) = 3%Z.
Proof. vm_compute. reflexivity. Qed.

(** There is no bound on the memory of a Cap'n Proto deserializer, even if all messages are small. *)
Theorem c108_capnp_memory_refuted so up wo i b : wo b = Some 1%Z ->
  ~ exists bound, forall hs, Forall (fun h => h = (i, b)) hs -> (cs_words (capnp_run so up wo hs) <= bound)%Z.
Proof.
  intros W [bound H]. specialize (H (repeat (i, b) (Z.to_nat (Z.max 0 bound) + 1))).
  assert (F : Forall (fun h => h = (i, b)) (repeat (i, b) (Z.to_nat (Z.max 0 bound) + 1))) by (apply Forall_forall; intros x I; exact (repeat_spec _ _ _ I)).
  specialize (H F). rewrite c108_capnp_memory in H. replace (map snd (repeat (i, b) (Z.to_nat (Z.max 0 bound) + 1))) with (repeat b (Z.to_nat (Z.max 0 bound) + 1)) in H.
  - rewrite (total_many wo b _ W) in H. lia.
  - generalize (Z.to_nat (Z.max 0 bound) + 1). intros n. induction n as [|n IH]; [reflexivity|]. cbn [repeat map snd]. rewrite IH. reflexivity.
Qed.
Print Assumptions c108_capnp_memory_refuted.

(** While an error callback is set and the callbacks of the user return, each message that arrives at a subscriber with
    a callback is reported once: decoded or as an error - as long as the process is there. *)
Theorem c108_accounted D I M (start : D) des (l : list (dact I)) : forallb returning l = true -> existsb silences l = false ->
  ds_alive (fst (d_run D I M des (dsub_init D I start) (AError true :: l))) = true ->
  length (filter reported (snd (d_run D I M des (dsub_init D I start) (AError true :: l)))) = handled false l.
Proof. exact (accounted D I M start des l). Qed.
Print Assumptions c108_accounted.

Example c108_accounted_ex :
  let l := [AMessage [0%Z] (Some pose_info) Returns; ACallback true; AMessage [1%Z] None Returns; AMessage [2%Z] (Some pose_info) Returns;
            AReceive (Some [3%Z]) None; AMessage [4%Z] None Returns] in
  handled false l = 3 /\
  snd (json_said plain_json (AError true :: l)) =
  [SComplaint; SCalled ((pose_b, str "Pose"), [2%Z]); SReceived (Some ((pose_b, str "Pose"), [3%Z])); SCalled ((pose_b, str "Pose"), [4%Z])].
Proof. split; vm_compute; reflexivity. Qed.

(** A subscriber of protobuf messages does not end the process and throws no exception, if the callbacks of the user do not. *)
Theorem c108_proto_survives parse l : forallb well_behaved l = true ->
  ds_alive (fst (proto_said parse l)) = true /\ ~ In STerminated (snd (proto_said parse l)) /\ ~ In SThrown (snd (proto_said parse l)).
Proof. exact (proto_survives parse l). Qed.
Print Assumptions c108_proto_survives.

Example c108_proto_survives_ex :
  snd (proto_said plain_parse [ACallback true; AError true; AMessage [1%Z] (Some inner_info) Returns; AMessage [2%Z] None ThrowsReflection]) = [SComplaint; SComplaint] /\
  snd (proto_said plain_parse [ACallback true; AError true; AMessage [1%Z] (Some pose_info) Returns; AMessage [2%Z] None ThrowsReflection]) =
    [SCalled ((pose_b, str "Pose"), [1%Z]); SCalled ((pose_b, str "Pose"), [2%Z]); SComplaint].
Proof. split; vm_compute; reflexivity. Qed.

(** A subscriber of JSON ends the process when bytes arrive that are no message of the type: the pointer that is thrown is
    caught nowhere, the error callback is not called. *)
Theorem c108_json_terminates_refuted json l b k e i : let s := fst (json_said json l) in
  ds_alive s = true -> ds_cb s = true -> ds_info s = Some i \/ ds_info s = None /\ k = Some i -> ~ vacuous i -> (forall t, json t b = None) ->
  ds_alive (fst (json_said json (l ++ [AMessage b k e]))) = false /\
  snd (json_said json (l ++ [AMessage b k e])) = snd (json_said json l) ++ [STerminated].
Proof. exact (json_terminates json l b k e i). Qed.
Print Assumptions c108_json_terminates_refuted.

Example c108_json_terminates_ex :
  snd (json_said plain_json [AError true; ACallback true; AMessage [1%Z] (Some pose_info) Returns; AMessage [255%Z] None Returns; AMessage [1%Z] None Returns]) =
  [SCalled ((pose_b, str "Pose"), [1%Z]); STerminated].
Proof. vm_compute. reflexivity. Qed.

(** The callback of a dynamic Cap'n Proto subscriber is never called, unless Receive has been called before. *)
Theorem c108_capnp_no_call_refuted so up wo l : existsb receives l = false -> forall m, ~ In (SCalled m) (snd (capnp_said so up wo l)).
Proof. exact (fun R => proj2 (capnp_quiet so up wo l R)). Qed.
Print Assumptions c108_capnp_no_call_refuted.

(** With a dynamic Cap'n Proto subscriber that has a callback, the first message of a topic whose type is known ends the
    process. *)
Theorem c108_capnp_terminates_refuted so up wo l b k e i : existsb receives l = false -> let s := fst (capnp_said so up wo l) in
  ds_alive s = true -> ds_cb s = true -> ds_info s = Some i \/ ds_info s = None /\ k = Some i ->
  ds_alive (fst (capnp_said so up wo (l ++ [AMessage b k e]))) = false /\
  snd (capnp_said so up wo (l ++ [AMessage b k e])) = snd (capnp_said so up wo l) ++ [STerminated].
Proof. exact (capnp_dies so up wo l b k e i). Qed.
Print Assumptions c108_capnp_terminates_refuted.

Example c108_capnp_terminates_ex :
  snd (capnp_said book_schema newest plain_words [ACallback true; AMessage [1%Z] None Returns; AMessage [2%Z] (Some book_info) Returns; AMessage [2%Z] None Returns]) = [STerminated].
Proof. vm_compute. reflexivity. Qed.

(** Receive of a dynamic Cap'n Proto subscriber throws at the first message of a topic whose type is known. *)
Theorem c108_capnp_receive_refuted so up wo l b i : existsb receives l = false -> ds_alive (fst (capnp_said so up wo l)) = true ->
  ds_info (fst (capnp_said so up wo l)) = None ->
  snd (capnp_said so up wo (l ++ [AReceive (Some b) (Some i)])) = snd (capnp_said so up wo l) ++ [SThrown].
Proof. exact (capnp_receive so up wo l b i). Qed.
Print Assumptions c108_capnp_receive_refuted.

Example c108_capnp_receive_ex :
  snd (capnp_said book_schema newest plain_words [AReceive (Some [1%Z]) (Some book_info); AReceive (Some [2%Z]) None; ACallback true; AMessage [3%Z] None Returns]) =
  [SThrown; SReceived (Some (book, [2%Z])); SCalled (book, [3%Z])].
Proof. vm_compute. reflexivity. Qed.
