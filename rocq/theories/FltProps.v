(** C98: the message filters of the protobuf decoder. *)
From Verif Require Import Base Sample DscModel StrModel FltModel FltSpec FltProofs.

(** What a filter contains after any insertions and clearings of paths. *)
Theorem c98_inserted ws : Forall good_wish ws ->
  exists l, flt_run (map call_of ws) = Some l /\
    forall x, flt_has x l = true <-> exists p, In p (wanted ws []) /\ put_in p x.
Proof. exact (inserted_has ws). Qed.
Print Assumptions c98_inserted.

Example c98_inserted_case :
  flt_run (map call_of [Want ab; Nothing; Want a_b; Want a1_c]) =
    Some [str "a"; str "a.b"; str "a[1]"; str "a[1].c"].
Proof. vm_compute. reflexivity. Qed.

(** If no step but the first has an index this is what the comment above CreateSet says. *)
Theorem c98_documented_partial ws : Forall good_wish ws -> Forall flat (wanted ws []) ->
  exists l, flt_run (map call_of ws) = Some l /\
    forall x, flt_has x l = true <-> exists p, In p (wanted ws []) /\ documented p x.
Proof. exact (documented_has ws). Qed.
Print Assumptions c98_documented_partial.

(** With an index further inside it is not: inserting a.b[1] leaves a.b out and puts b in, so that a decoder asking
    for the field a.b first never reaches a.b[1]. *)
Theorem c98_documented_refuted :
  good a_b1 /\ documented a_b1 (str "a.b") /\ ~ documented a_b1 (str "b") /\
  exists l, flt_run [FltInsert (show a_b1)] = Some l /\
    flt_has (str "a.b") l = false /\ flt_has (str "b") l = true /\ flt_complex (str "a.b") l = false.
Proof. exact documented_bad. Qed.
Print Assumptions c98_documented_refuted.

(** Erasing a path whose pieces are all present is defined, takes away nothing but pieces of the path, and takes
    away no piece which another element goes on from. *)
Theorem c98_erase_defined ops l p : flt_run ops = Some l -> good p -> (forall x, put_in p x -> In x l) ->
  exists l', flt_erase (show p) l = Some l'.
Proof. exact (erase_defined_path ops l p). Qed.
Print Assumptions c98_erase_defined.

Theorem c98_erase_pieces ops l p l' : flt_run ops = Some l -> good p -> flt_erase (show p) l = Some l' ->
  forall x, (In x l' -> In x l) /\ (In x l -> ~ In x l' -> put_in p x /\ forall y, In y l' -> ~ extends y x).
Proof. exact (erase_pieces ops l p l'). Qed.
Print Assumptions c98_erase_pieces.

(** For a path with no index but in its first step: an element goes if and only if it is a piece of the path and
    nothing but pieces of the path go on from it. *)
Theorem c98_erase_partial ops l p l' : flt_run ops = Some l -> good p -> flat p -> flt_erase (show p) l = Some l' ->
  forall x, In x l' <-> In x l /\ (chain p x -> exists y, In y l /\ ~ chain p y /\ extends y x).
Proof. exact (erase_flat ops l p l'). Qed.
Print Assumptions c98_erase_partial.

Example c98_erase_case :
  flt_run [FltInsert (str "a.b"); FltInsert (str "a.c.d"); FltErase (str "a.c.d")] = Some [str "a"; str "a.b"] /\
  flt_run [FltInsert (str "a.b"); FltInsert (str "a.c.d"); FltErase (str "a.b")] = Some [str "a"; str "a.c"; str "a.c.d"].
Proof. split; vm_compute; reflexivity. Qed.

(** Erasing what is not there is undefined: the iterator past the end is moved on. *)
Theorem c98_erase_missing_refuted p : length p = 1 -> good p -> flat p -> (forall s, In s p -> snd s = None) ->
  flt_run [FltErase (show p)] = None.
Proof. exact (erase_missing_path p). Qed.
Print Assumptions c98_erase_missing_refuted.

Example c98_erase_missing_case : good aa /\ flat aa /\ flt_run [FltErase (show aa)] = None.
Proof. exact erase_missing_case. Qed.

(** Erasing does not undo the insertion only: a field inserted for itself goes with the field erased below it. *)
Theorem c98_erase_undo_refuted :
  flt_run [FltInsert (show aa)] = Some [str "a"] /\
  flt_run [FltInsert (show aa); FltInsert (show a_b); FltErase (show a_b)] = Some [].
Proof. split; vm_compute; reflexivity. Qed.
Print Assumptions c98_erase_undo_refuted.

(** Erasing leaves a field in the filter because another field's name begins with the same letters. *)
Theorem c98_erase_letters_refuted :
  flt_run [FltInsert (show ab); FltInsert (show aa); FltErase (show aa)] = Some [str "a"; str "ab"].
Proof. vm_compute. reflexivity. Qed.
Print Assumptions c98_erase_letters_refuted.

(** The filter with stars.  A name with one index is accepted if it was inserted, or, as long as nothing was
    inserted for this very index, if it was inserted with a star. *)
Theorem c98_stars_partial ws l q n i r : Forall good_wish ws -> flt_run (map call_of ws) = Some l ->
  good (q ++ (n, Some i) :: r) -> Forall (fun s => snd s = None) q -> Forall (fun s => snd s = None) r ->
  flt_complex (show (q ++ (n, Some i) :: r)) l = true <->
    In (show (q ++ (n, Some i) :: r)) l \/
    (~ In (show (q ++ [(n, Some i)])) l /\ In (show (q ++ (n, Some [42%Z]) :: r)) l).
Proof. exact (stars_lemma ws l q n i r). Qed.
Print Assumptions c98_stars_partial.

(** A name without indices is accepted if and only if it is in the set. *)
Theorem c98_plain l p : good p -> Forall (fun s => snd s = None) p -> flt_complex (show p) l = flt_has (show p) l.
Proof. exact (complex_plain l p). Qed.
Print Assumptions c98_plain.

Example c98_stars_case : exists l, flt_run [FltInsert (show as_b)] = Some l /\
  flt_complex (str "a[7].b") l = true /\ flt_complex (str "a[7].c") l = false /\ flt_complex (str "a") l = true.
Proof. eexists. split; [reflexivity|]. repeat split; vm_compute; reflexivity. Qed.

(** A name with a second index and a field behind it is rejected although it was inserted. *)
Theorem c98_two_indices_refuted : good a1_b2_c /\ exists l, flt_run [FltInsert (show a1_b2_c)] = Some l /\
  flt_has (show a1_b2_c) l = true /\ flt_complex (show a1_b2_c) l = false.
Proof. exact two_indices_bad. Qed.
Print Assumptions c98_two_indices_refuted.

(** A star does not help any more once something else was inserted for the same index: with a[*].b the name a[1].b
    is accepted, and with a[1].c in addition it is rejected. *)
Theorem c98_star_hidden_refuted :
  (exists l, flt_run [FltInsert (show as_b)] = Some l /\ flt_complex (show a1_b) l = true) /\
  (exists l, flt_run [FltInsert (show as_b); FltInsert (show a1_c)] = Some l /\ flt_complex (show a1_b) l = false).
Proof. split; eexists; (split; [reflexivity|vm_compute; reflexivity]). Qed.
Print Assumptions c98_star_hidden_refuted.
