(** C86: the configuration file that is found; C87: type names with an encoding. *)
From Verif Require Import Base Sample FindModel FindSpec FindProofs.
Open Scope Z_scope.


(** The file that is loaded is the first existing one among: in the working directory, in ECAL_DATA,
    in the installed directory, in /etc/ecal, the path itself; if there is none, no file is. *)
Theorem c86_first_existing_file : forall e f,
  (no_file e (places e f) -> config_file e f = []) /\ (forall r, first_file e (places e f) r -> config_file e f = r).
Proof. exact config_file_lemma. Qed.
Example c86_installed_before_etc :
  config_file desk (str "ecal.yaml") = str "/usr/local/etc/ecal/ecal.yaml" /\
  first_file desk (places desk (str "ecal.yaml")) (str "/usr/local/etc/ecal/ecal.yaml").
Proof.
  split; [reflexivity|]. exists [str "/home/u/ecal.yaml"; str "ecal.yaml"], [str "/etc/ecal/ecal.yaml"; str "ecal.yaml"].
  split; [reflexivity|]. split; [reflexivity|]. repeat constructor.
Qed.

(** A path from the root is not taken as it is: a file below the working directory comes first. *)
Theorem c86_absolute_path_first_refuted : ~ forall e r, su_regular e (47 :: r) = true -> config_file e (47 :: r) = 47 :: r.
Proof.
  intro H. specialize (H (mkSurroundings (str "/w") [] [] [] (fun p => existsb (eqb p) [str "/a/e.yaml"; str "/w//a/e.yaml"])) (str "a/e.yaml") eq_refl).
  discriminate.
Qed.

(** GeteCALConfigPath: without ECAL_DATA a file in the working directory hides the one in
    /etc/ecal, and the answer is the one for nothing found. *)
Theorem c86_config_path_refuted : ~ forall e, su_regular e (str "/etc/ecal/ecal.yaml") = true -> config_path e <> [].
Proof.
  intro H. pose (e := mkSurroundings (str "/w") [] [] [] (fun p => existsb (eqb p) [str "/etc/ecal/ecal.yaml"; str "/w/ecal.yaml"; str "ecal.yaml"])).
  apply (H e); vm_compute; reflexivity.
Qed.

(** Encoding and type come back from the combined name exactly if the encoding has no colon and, should
    there be none, the type has none either. *)
Theorem c87_split_after_combine : forall e t, split_type (combine_type e t) = (e, t) <-> ~ In 58 e /\ (e = [] -> ~ In 58 t).
Proof. exact split_combine_lemma. Qed.
Example c87_proto : split_type (str "proto:pb.People") = (str "proto", str "pb.People") /\
  split_type (combine_type [] (str "a:b")) = (str "a", str "b").
Proof. split; reflexivity. Qed.

(** A combined name is kept by splitting and combining unless it begins with a colon. *)
Theorem c87_combine_after_split : forall s, (let '(e, t) := split_type s in combine_type e t) = s <-> (forall r, s <> 58 :: r).
Proof. exact combine_split_lemma. Qed.
Example c87_leading_colon : (let '(e, t) := split_type (str ":x") in combine_type e t) = str "x".
Proof. reflexivity. Qed.

Print Assumptions c86_first_existing_file.
Print Assumptions c86_absolute_path_first_refuted.
Print Assumptions c86_config_path_refuted.
Print Assumptions c87_split_after_combine.
Print Assumptions c87_combine_after_split.
