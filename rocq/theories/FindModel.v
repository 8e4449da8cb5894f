(** Finding the configuration file, and type names with an encoding.

    Modelled: ecal/core/src/config/ecal_config_initializer.cpp 60-191 (the directories on Linux and
    the search in them), 303-312 (GeteCALConfigPath), ecal/core/src/ecal_util.cpp 535-562
    (SplitCombinedTopicType, CombinedTopicEncodingAndType).
    Simplified: the file system is the test whether a path is a regular file. *)
From Verif Require Import Base Sample.
Open Scope Z_scope.

(** setPathSep, 69-81 *)
Definition set_path_sep (p : text) : text := match p with [] => [] | _ => if last p 0 =? 47 then p else p ++ [47] end.
(** eCALDataCMakePath, 98-117 *)
Definition cmake_path (prefix dir : text) : text :=
  set_path_sep (match dir, prefix with
                | _, [] => dir
                | c :: _, _ => if c =? 47 then dir else prefix ++ [47] ++ dir
                | [], _ => prefix ++ [47] ++ dir
                end).
(** eCALDataSystemPath, 119-135 *)
Definition system_path : text := str "/etc/ecal/".

Record surroundings := mkSurroundings {
  su_cwd : text;          (* getcwd *)
  su_data : text;         (* ECAL_DATA, empty if it is not set *)
  su_prefix : text; su_dir : text;   (* ECAL_INSTALL_PREFIX, ECAL_INSTALL_CONFIG_DIR *)
  su_regular : text -> bool
}.
(** getEcalDefaultPaths, 159-177 *)
Definition default_paths (e : surroundings) : list text :=
  [set_path_sep (su_data e); cmake_path (su_prefix e) (su_dir e); system_path].
(** findValidConfigPath, 144-158 *)
Definition find_path (e : surroundings) (paths : list text) (f : text) : text :=
  match find (fun p => su_regular e (p ++ f)) paths with Some p => p | None => [] end.
(** checkForValidConfigFilePath, 179-198 *)
Definition config_file (e : surroundings) (f : text) : text :=
  match find_path e (set_path_sep (su_cwd e) :: default_paths e) f with
  | [] => if su_regular e f then f else []
  | p => p ++ f
  end.
(** GeteCALConfigPath *)
Definition default_name : text := str "ecal.yaml".
Definition config_path (e : surroundings) : text := find_path e (default_paths e) default_name.

(** SplitCombinedTopicType, CombinedTopicEncodingAndType *)
Fixpoint colon_split (s : text) : option (text * text) :=
  match s with
  | [] => None
  | c :: r => if c =? 58 then Some ([], r) else match colon_split r with Some (a, b) => Some (c :: a, b) | None => None end
  end.
Definition split_type (s : text) : text * text := match colon_split s with Some p => p | None => ([], s) end.
Definition combine_type (encoding type : text) : text := match encoding with [] => type | _ => encoding ++ [58] ++ type end.
