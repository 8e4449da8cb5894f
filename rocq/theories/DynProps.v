(** C101: the dynamic protobuf decoder. *)
From Verif Require Import Base Sample FdsModel FdsSpec DynModel DynSpec DynProofs.

(** From an orderly set of files, and from a fresh decoder, a message type at top level of the last file is found, as long
    as no earlier file begins with a type of the same short name. *)
Theorem c101_right_type_partial fs f n : orderly (fs ++ [f]) -> In n (fp_top f) -> (forall g, In g fs -> hd_error (fp_top g) <> Some n) ->
  get_message [] (fs ++ [f]) n = (fs ++ [f], Some (f, n)).
Proof. exact (right_lemma fs f n). Qed.
Print Assumptions c101_right_type_partial.

Theorem c101_decodes_partial left fs f n : orderly (fs ++ [f]) -> In n (fp_top f) -> simple_name n ->
  (forall g, In g fs -> hd_error (fp_top g) <> Some n) ->
  answer_after left [] (qualified (f, n), fs ++ [f]) = DMessage (f, n).
Proof. exact (decodes_lemma left fs f n). Qed.
Print Assumptions c101_decodes_partial.

Example c101_decodes_case : orderly [point_a; pose_b] /\
  answer_after true [] (str "b.Pose", [point_a; pose_b]) = DMessage (pose_b, str "Pose").
Proof. split; [exact (proj2 pose_orderly)|vm_compute; reflexivity]. Qed.

(** The description a publisher makes of its type (C100), given to a fresh deserializer, leads to this type, under the
    conditions of both. *)
Theorem c101_described_partial left w pr nm m s c : valid w -> contents w pr nm -> m < w_msgs w -> described w m s c ->
  (forall f, reaches w (fm_file (w_msg w m)) f -> f <> fm_file (w_msg w m) -> substantial w f) ->
  In m (ff_top (w_file w (fm_file (w_msg w m)))) -> simple_name (nm m) ->
  (forall f, In f s -> f <> fm_file (w_msg w m) -> hd_error (fp_top (pr f)) <> Some (nm m)) ->
  answer_after left [] (qualified (pr (fm_file (w_msg w m)), nm m), map pr s) = DMessage (pr (fm_file (w_msg w m)), nm m).
Proof. exact (world_lemma left w pr nm m s c). Qed.
Print Assumptions c101_described_partial.

Example c101_described_case : contents plain_world plain_contents plain_names /\
  exists c, described plain_world 2 [0; 1; 2] c /\ simple_name (plain_names 2) /\
    (forall f, In f [0; 1; 2] -> f <> 2 -> hd_error (fp_top (plain_contents f)) <> Some (plain_names 2)) /\
    answer_after true [] (str "C", map plain_contents [0; 1; 2]) = DMessage (plain_contents 2, str "C").
Proof. exact (conj plain_contents_ok plain_world_case). Qed.

(** Once a deserializer has found the type for a type information it stays with it. *)
Theorem c101_stable left is i t js : answer_after left is i = DMessage t -> answer_after left (is ++ i :: js) i = DMessage t.
Proof. exact (stable_lemma left is i t js). Qed.
Print Assumptions c101_stable.

Example c101_stable_case :
  answer_after false [(str "p.Msg", [inside_1]); (str "p.Msg", [inside_2])] (str "p.Msg", [inside_1]) = DMessage (inside_1, str "Msg").
Proof. vm_compute. reflexivity. Qed.

(** Type information the decoder can do nothing with gives an exception each time, if the message is made before its
    entry. *)
Theorem c101_no_crash is i : answer_after false is i <> DCrash.
Proof. exact (no_crash is i). Qed.
Print Assumptions c101_no_crash.

(** This rests on the order of evaluation of C++17: if the entry were made first, a null pointer would stay in the map
    and the second message of the same type be a null pointer access. *)
Theorem c101_null_order is i : answer_after true is i = DException -> answer_after true (is ++ [i]) i = DCrash.
Proof. exact (crash_lemma is i). Qed.
Print Assumptions c101_null_order.

Example c101_null_case : answer_after true [] (str "p.Other", [outer_p]) = DException /\
  answer_after true [(str "p.Other", [outer_p])] (str "p.Other", [outer_p]) = DCrash.
Proof. split; vm_compute; reflexivity. Qed.

(** If a file in front of the type's own begins with a type of the same short name, this one is taken: b.Pose is decoded
    as a.Pose. *)
Theorem c101_same_name_refuted left fs g r f n : orderly (fs ++ [g] ++ r) -> In f r -> simple_name n ->
  hd_error (fp_top g) = Some n -> (forall h, In h fs -> hd_error (fp_top h) <> Some n) ->
  answer_after left [] (qualified (f, n), fs ++ [g] ++ r) = DMessage (g, n) /\ g <> f.
Proof. exact (wrong_lemma left fs g r f n). Qed.
Print Assumptions c101_same_name_refuted.

Example c101_same_name_case : orderly [pose_a; pose_b] /\
  answer_after false [] (str "b.Pose", [pose_a; pose_b]) = DMessage (pose_a, str "Pose").
Proof. split; [exact (proj1 pose_orderly)|vm_compute; reflexivity]. Qed.

(** A type nested in another is not found. *)
Theorem c101_nested_refuted left : orderly [outer_p] /\ In (outer_p, str "Outer.Inner") (types_of outer_p) /\
  qualified (outer_p, str "Outer.Inner") = str "p.Outer.Inner" /\
  answer_after left [] (str "p.Outer.Inner", [outer_p]) = DException.
Proof. split; [exact (orderly_one outer_p eq_refl)|]. destruct left; vm_compute; intuition reflexivity. Qed.
Print Assumptions c101_nested_refuted.

(** A file which changes is not used any more in its new form: whatever a deserializer gives later comes, among the files
    of this name, from the first one. *)
Theorem c101_changed_refuted left is i t js j u : answer_after left is i = DMessage t -> answer_after left (is ++ i :: js) j = DMessage u ->
  fp_name (fst u) = fp_name (fst t) -> fst u = fst t.
Proof. exact (old_lemma left is i t js j u). Qed.
Print Assumptions c101_changed_refuted.

(** Without a package the old type is used for the new messages, with a package there is an exception. *)
Example c101_changed_case :
  answer_after false [(str "Msg", [plain_1])] (str "Msg", [plain_2]) = DMessage (plain_1, str "Msg") /\
  answer_after false [(str "p.Msg", [inside_1])] (str "p.Msg", [inside_2]) = DException /\
  answer_after false [] (str "p.Msg", [inside_2]) = DMessage (inside_2, str "Msg").
Proof. repeat split; vm_compute; reflexivity. Qed.

(** A decoder that has been given one text refuses every other: both are called foo.proto. *)
Theorem c101_second_text_refuted f f' x t p y : fp_deps f = [] -> get_from_text [] f x = (p, Some t) -> named_foo f <> named_foo f' ->
  pool_type p y = None -> get_from_text p f' y = (p, None).
Proof. exact (text_second f f' x t p y). Qed.
Print Assumptions c101_second_text_refuted.

Example c101_second_text_case : exists p t, get_from_text [] pose_a (str "Pose") = (p, Some t) /\
  get_from_text p outer_p (str "Outer") = (p, None) /\ snd (get_from_text [] outer_p (str "Outer")) <> None.
Proof. eexists _, _. split; [vm_compute; reflexivity|]. split; [vm_compute; reflexivity|vm_compute; discriminate]. Qed.

(** The descriptions of a service's types: one for every type of the service's own file, in any order, if this file has
    no imports. *)
Theorem c101_service_partial f xs : fp_deps f = [] -> Forall (fun x => In x (fp_top f)) xs ->
  forall a x b, xs = a ++ x :: b -> snd (service_type (fold_left (fun p y => fst (service_type p f y)) a []) f x) = Some [named_foo f].
Proof. exact (fun D F a x b => service_run f xs D F [] a x b (or_introl eq_refl)). Qed.
Print Assumptions c101_service_partial.

Example c101_service_case : snd (service_type (fst (service_type [] point_a (str "Pose"))) point_a (str "Point")) = Some [named_foo point_a].
Proof. vm_compute. reflexivity. Qed.

(** If the file of the service has imports there is none at all. *)
Theorem c101_service_refuted f x : fp_deps f <> [] -> service_type [] f x = ([], None).
Proof. exact (service_import f x). Qed.
Print Assumptions c101_service_refuted.

Example c101_service_import_case : fp_deps pose_b <> [] /\ In (str "Pose") (fp_top pose_b) /\ snd (service_type [] pose_b (str "Pose")) = None.
Proof. repeat split; [discriminate|left; reflexivity]. Qed.
