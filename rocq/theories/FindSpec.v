(** Vocabulary for the search of the configuration file. *)
From Verif Require Import Base Sample FindModel.
Open Scope Z_scope.

(** A file in a directory. *)
Definition inside (dir f : text) : text := match dir with [] => f | _ => if last dir 0 =? 47 then dir ++ f else dir ++ str "/" ++ f end.
(** The directory of the installation. *)
Definition installed (e : surroundings) : text :=
  match su_prefix e, su_dir e with
  | [], d => d
  | _, 47 :: _ => su_dir e
  | p, d => p ++ str "/" ++ d
  end.
(** The places in the order in which they count. *)
Definition places (e : surroundings) (f : text) : list text :=
  [inside (su_cwd e) f; inside (su_data e) f; inside (installed e) f; inside (str "/etc/ecal") f; f].
(** The first of them that is a file. *)
Definition first_file (e : surroundings) (l : list text) (r : text) : Prop :=
  exists before after, l = before ++ r :: after /\ su_regular e r = true /\ Forall (fun p => su_regular e p = false) before.
Definition no_file (e : surroundings) (l : list text) : Prop := Forall (fun p => su_regular e p = false) l.
(** An example. *)
Definition desk : surroundings :=
  mkSurroundings (str "/home/u") [] (str "/usr/local") (str "etc/ecal") (fun p => existsb (eqb p) [str "/usr/local/etc/ecal/ecal.yaml"; str "/etc/ecal/ecal.yaml"]).
