(** C100: the set of file descriptors which describes a protobuf message type. *)
From Verif Require Import Base Sample FdsModel FdsSpec FdsProofs.

(** The collection ends for every message type, and its result is determined. *)
Theorem c100_ends w m : valid w -> m < w_msgs w -> exists s c, described w m s c.
Proof. exact (ends_lemma w m). Qed.
Print Assumptions c100_ends.

Theorem c100_unique w m s c s' c' : described w m s c -> described w m s' c' -> s = s' /\ c = c'.
Proof. exact (unique_lemma w m s c s' c'). Qed.
Print Assumptions c100_unique.

(** No file is in the set twice, the file of the type is in it, and so are only files this one imports. *)
Theorem c100_once w m s c : valid w -> m < w_msgs w -> described w m s c ->
  NoDup (map (fun f => ff_name (w_file w f)) s) /\ In (fm_file (w_msg w m)) s /\
  forall f, In f s -> reaches w (fm_file (w_msg w m)) f.
Proof. exact (once_lemma w m s c). Qed.
Print Assumptions c100_once.

(** If every imported file has a message type, or an enum or a service and no imports: the set is complete, every
    file comes after those it imports, and the file of the type is the last. *)
Theorem c100_complete_partial w m s c : valid w -> m < w_msgs w -> described w m s c ->
  (forall f, reaches w (fm_file (w_msg w m)) f -> f <> fm_file (w_msg w m) -> substantial w f) ->
  (forall f, In f s <-> reaches w (fm_file (w_msg w m)) f) /\ buildable w s /\ exists s', s = s' ++ [fm_file (w_msg w m)].
Proof. exact (complete_lemma w m s c). Qed.
Print Assumptions c100_complete_partial.

Example c100_complete_case : valid plain_world /\ described plain_world 2 [0; 1; 2] 12%Z /\
  forall f, f < 3 -> substantial plain_world f.
Proof. exact plain_case. Qed.

(** Otherwise not: a file which does nothing but import another one publicly is left out, although the file of the
    message imports it, and the file it stands for comes too late. *)
Theorem c100_forward_refuted :
  valid forward_world /\ (exists c, described forward_world 1 [2; 0] c) /\ In 1 (ff_deps (w_file forward_world 2)) /\
  ~ buildable forward_world [2; 0].
Proof. exact forward_bad. Qed.
Print Assumptions c100_forward_refuted.

(** What a file with services or enums but without message types imports is left out. *)
Theorem c100_service_refuted :
  valid service_world /\ (exists c, described service_world 1 [1; 2] c) /\ In 0 (ff_deps (w_file service_world 1)) /\
  ~ buildable service_world [1; 2].
Proof. exact service_bad. Qed.
Print Assumptions c100_service_refuted.

(** The imports are followed again each time, whether they are in the set or not: a chain of n + 1 files with two message
    types each takes 2^n calls and more. *)
Theorem c100_cost_refuted n : valid (chain_world n) /\ forall s c, described (chain_world n) (2 * n) s c -> (2 ^ Z.of_nat n <= c)%Z.
Proof. exact (conj (chain_valid n) (cost_lemma n)). Qed.
Print Assumptions c100_cost_refuted.

Example c100_cost_case : exists s, described (chain_world 8) 16 s 511%Z /\ length s = 9.
Proof. exact chain_case. Qed.
