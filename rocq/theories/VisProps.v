(** C99: the protobuf decoder and its visitors. *)
From Verif Require Import Base Sample MonModel StrModel FltModel FltSpec VisModel VisSpec VisProofs.

(** The visitor is given exactly the scalars of the message whose path it accepts, in the order of the message, each
    with the name of its path. *)
Theorem c99_values acc m name prefix array id : well_named m ->
  flat_map said (visit acc name prefix array id m) =
    map (fun pv => (under (full_name name prefix) (fst pv), snd pv))
        (filter (fun pv => allowed acc (full_name name prefix) (fst pv)) (places m)).
Proof. exact (fun W => values_lemma acc m W name prefix array id). Qed.
Print Assumptions c99_values.

Example c99_values_case :
  flat_map said (visit (fun _ => true) (str "topic") [] false 0 outer_msg) =
    [(str "topic.id", int32 7); (str "topic.list[0]", int32 10); (str "topic.list[1]", int32 20); (str "topic.list[2]", int32 30);
     (str "topic.in.x", int32 5); (str "topic.all[0].x", int32 1); (str "topic.all[2].x", int32 3)].
Proof. vm_compute. reflexivity. Qed.

Example c99_values_named : well_named outer_msg.
Proof. exact outer_named. Qed.

(** What is accepted: every field on the way, and at each index the whole array or this element. *)
Theorem c99_allowed acc p : Forall good_step p -> forall base,
  allowed acc base p = true <-> forall q n o r, p = q ++ (n, o) :: r ->
    acc (under base (q ++ [(n, None)])) = true /\
    (forall i, o = Some i -> acc (under base (q ++ [(n, Some [42%Z])])) = true \/ acc (under base (q ++ [(n, Some i)])) = true).
Proof. exact (allowed_spec acc p). Qed.
Print Assumptions c99_allowed.

(** No name is given twice. *)
Theorem c99_once acc m name prefix array id : well_named m ->
  NoDup (map fst (flat_map said (visit acc name prefix array id m))).
Proof. exact (once_lemma acc m name prefix array id). Qed.
Print Assumptions c99_once.

(** Messages and arrays are opened and closed in turn, and each call is made inside the one it names; this does not
    depend on the names. *)
Theorem c99_order acc m name prefix id outer array :
  in_order (OMsg array prefix :: outer) (visit acc name prefix false id m).
Proof. exact (order_lemma acc m name prefix false id (OMsg array prefix :: outer) eq_refl). Qed.
Print Assumptions c99_order.

Example c99_order_case :
  visit (fun x => negb (eqb x (str "list"))) [] [] false 0 outer_msg <> [] /\
  fold_left vcheck1 (firstn 3 (visit (fun _ => true) [] [] false 0 outer_msg)) (Some [OMsg false []]) =
    Some [OArr (str "list") 3; OMsg false []; OMsg false []].
Proof. split; [discriminate|vm_compute; reflexivity]. Qed.

(** With the simple include filter, paths being inserted which have an index in their first step at most and no
    star: a value at such a path is visited if and only if the path, or a longer one, was inserted. *)
Theorem c99_filtered_partial ws l p : Forall good_wish ws -> Forall flat (wanted ws []) -> Forall starless (wanted ws []) ->
  flt_run (map call_of ws) = Some l -> good p -> flat p ->
  allowed (fun x => flt_has x l) [] p = flt_has (show p) l.
Proof. exact (filtered_lemma ws l p). Qed.
Print Assumptions c99_filtered_partial.

Example c99_filtered_case : exists l, flt_run [FltInsert (str "all[2].x"); FltInsert (str "in.x")] = Some l /\
  flat_map said (visit (fun x => flt_has x l) [] [] false 0 outer_msg) = [(str "in.x", int32 5); (str "all[2].x", int32 3)].
Proof. eexists. split; [reflexivity|vm_compute; reflexivity]. Qed.

(** With an index further inside nothing is visited: a.b[0] is inserted and is in the message, and the visitor is given
    no value. *)
Theorem c99_filtered_refuted : exists l, flt_run [FltInsert (str "a.b[0]")] = Some l /\
  In (str "a.b[0]") (map (fun pv => show (fst pv)) (places nested_msg)) /\ flt_has (str "a.b[0]") l = true /\
  flat_map said (visit (fun x => flt_has x l) [] [] false 0 nested_msg) = [] /\
  flat_map said (visit (fun x => flt_complex x l) [] [] false 0 nested_msg) = [].
Proof. exact nested_bad. Qed.
Print Assumptions c99_filtered_refuted.

(** The visitor of the array dimensions knows, for each name, the largest size of an array called so in all the
    messages it was led through, 0 if there was none. *)
Theorem c99_max_size c (ms : list (text * vmsg)) :
  max_size (fold_left (fun d nm => dims_visit d (fst nm) (snd nm)) ms []) c =
  fold_left Z.max (sizes_of c (flat_map (fun nm => visit (fun _ => true) (fst nm) [] false 0 (snd nm)) ms)) 0%Z.
Proof. exact (dims_lemma c ms). Qed.
Print Assumptions c99_max_size.

Example c99_max_size_case :
  max_size (fold_left (fun d nm => dims_visit d (fst nm) (snd nm)) [(str "t", outer_msg); (str "t", nested_msg)] []) (str "t.list") = 3%Z /\
  max_size (fold_left (fun d nm => dims_visit d (fst nm) (snd nm)) [(str "t", outer_msg); (str "t", nested_msg)] []) (str "t.a.b") = 1%Z /\
  max_size (fold_left (fun d nm => dims_visit d (fst nm) (snd nm)) [(str "t", outer_msg)] []) (str "t.a.b") = 0%Z.
Proof. repeat split; vm_compute; reflexivity. Qed.
