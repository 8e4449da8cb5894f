(** The directories of eCAL below the home directory: ecal/core/src/config/ecal_config_initializer.cpp
    282-301 (direxists, createdir), 316-411 (GeteCALHomePath, GeteCALUserSettingsPath,
    GeteCALLogPath), as compiled for Linux; lib/ecal_utils/src/filesystem.cpp 69-79, 88-105, 241-252
    (FileStatus, MkDir); the constants of ecal/core/src/ecal_def.h 36-38.

    The file system of PathModel.v: for each existing path but the root, whether it is a directory.
    Simplified: no symbolic links; everything may be searched; directories can be made in some
    directories ([may]: permissions, space) and not in others, and nobody else makes or removes any. *)
From Verif Require Import Base Sample StrModel PathModel LogModel.

(** The working directory and the directories in which others can be made. *)
Record hfs := Hfs { hf_files : files; hf_cwd : list text; hf_may : list text -> bool }.
(** getenv("HOME"), and the home directory of the entry that getpwuid finds. *)
Record henv := Henv { he_home : option text; he_passwd : option text }.

(** How the system follows a path: "." stays, ".." goes up (not above the root), a name must be a directory. *)
Fixpoint walk (fs : files) (here : list text) (ps : list text) : option (list text) :=
  match ps with
  | [] => Some here
  | p :: r =>
      if eqb p dot then walk fs here r
      else if eqb p dots then walk fs (removelast here) r
      else match aget (here ++ [p]) fs with Some true => walk fs (here ++ [p]) r | _ => None end
  end.
Definition start_of (s : hfs) (p : text) : list text := match p with 47%Z :: _ => [] | _ => hf_cwd s end.
(** direxists 290-294: stat(2) and S_IFDIR; the empty path does not exist. *)
Definition dir_exists (s : hfs) (p : text) : bool :=
  match p with
  | [] => false
  | _ => match walk (hf_files s) (start_of s p) (str_split [slash] p) with Some _ => true | None => false end
  end.
(** createdir 296-299: mkdir(2), the result is not looked at. *)
Definition create_dir (s : hfs) (p : text) : hfs :=
  match rev (str_split [slash] p) with
  | n :: r =>
      match walk (hf_files s) (start_of s p) (rev r) with
      | Some d =>
          match (eqb n dot || eqb n dots)%bool, aget (d ++ [n]) (hf_files s), hf_may s d with
          | false, None, true => Hfs (aset (d ++ [n]) true (hf_files s)) (hf_cwd s) (hf_may s)
          | _, _, _ => s
          end
      | None => s
      end
  | [] => s
  end.
(** 348-351, 370-373, 392-395. *)
Definition ensure (s : hfs) (p : text) : hfs := if dir_exists s p then s else create_dir s p.

(** GeteCALHomePath 316-356; None: a null pointer is read, line 338 or 340. *)
Definition home_dir (e : henv) : option text := match he_home e with Some h => Some h | None => he_passwd e end.
Definition get_home (e : henv) (s : hfs) : option (hfs * text) :=
  match home_dir e with
  | Some h => let p := h ++ [slash] ++ str ".ecal" in Some (ensure s p, p ++ [slash])
  | None => None
  end.
(** GeteCALUserSettingsPath 358-377 ("cfg") and GeteCALLogPath 379-398 ("logs"). *)
Definition get_below (n : text) (e : henv) (s : hfs) : option (hfs * text) :=
  match get_home e s with
  | Some (s1, p) => let q := p ++ n in Some (ensure s1 q, q ++ [slash])
  | None => None
  end.
Definition get_settings : henv -> hfs -> option (hfs * text) := get_below (str "cfg").
Definition get_logs : henv -> hfs -> option (hfs * text) := get_below (str "logs").
(** What CLog::Start finds: the directory of the log file, if it is one (ecal_log_impl.cpp 127-137, 71-80). *)
Definition log_dir (e : henv) (s : hfs) : option (hfs * option text) :=
  match get_logs e s with
  | Some (s1, p) => Some (s1, if dir_exists s1 p then Some p else None)
  | None => None
  end.
