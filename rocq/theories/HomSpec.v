(** Vocabulary for the directories of eCAL. *)
From Verif Require Import Base Sample StrModel PathModel PathSpec LogModel HomModel.

(** A directory of the file system; the root always is. *)
Definition is_directory (s : hfs) (d : list text) : Prop := d = [] \/ aget d (hf_files s) = Some true.
(** Something that is not a directory, or nothing. *)
Definition is_file (s : hfs) (d : list text) : Prop := aget d (hf_files s) = Some false.
Definition nothing (s : hfs) (d : list text) : Prop := aget d (hf_files s) = None.
(** The system starts somewhere and goes through these components to the directory [d]. *)
Inductive follows (s : hfs) : list text -> list text -> list text -> Prop :=
| f_here d : follows s d [] d
| f_dot a ps d : follows s a ps d -> follows s a (str "." :: ps) d
| f_up a ps d : follows s (removelast a) ps d -> follows s a (str ".." :: ps) d
| f_down a p ps d : p <> str "." -> p <> str ".." -> is_directory s (a ++ [p]) -> follows s (a ++ [p]) ps d -> follows s a (p :: ps) d.
(** The path [p] leads to the directory [d]. *)
Definition leads (s : hfs) (p : text) (d : list text) : Prop :=
  follows s (match p with 47%Z :: _ => [] | _ => hf_cwd s end) (str_split [47%Z] p) d.
(** The home directory as eCAL takes it: with an empty text it is the root. *)
Definition home_leads (s : hfs) (h : text) (d : list text) : Prop := match h with [] => d = [] | _ => leads s h d end.
(** In the directory [d] there is the directory [n] or it can be made. *)
Definition possible (s : hfs) (d : list text) (n : text) : Prop :=
  is_directory s (d ++ [n]) \/ (nothing s (d ++ [n]) /\ hf_may s d = true).
Definition sound (s : hfs) : Prop := sound_fs (hf_files s).
(** Nothing else has changed. *)
Definition only_adds (s s' : hfs) (l : list (list text)) : Prop :=
  hf_cwd s' = hf_cwd s /\ hf_may s' = hf_may s /\
  forall q, aget q (hf_files s') = aget q (hf_files s) \/ (In q l /\ nothing s q /\ aget q (hf_files s') = Some true).

(** ** Examples *)
Definition ho_any (d : list text) : bool := true.
Definition ho_fs : hfs := Hfs [([str "home"], true); ([str "home"; str "u"], true)] [str "home"] ho_any.
Definition ho_env : henv := Henv (Some (str "/home/u")) None.
Definition ho_rel : henv := Henv (Some (str "u/../u/.")) None.
Definition ho_empty : henv := Henv (Some []) (Some (str "/home/u")).
Definition ho_missing : henv := Henv (Some (str "/home/v")) (Some (str "/home/u")).
Definition ho_file : hfs := Hfs [([str "home"], true); ([str "home"; str "u"], true); ([str "home"; str "u"; str ".ecal"], false)] [] ho_any.
Definition ho_view (o : option (hfs * text)) : option (files * text) := option_map (fun r => (hf_files (fst r), snd r)) o.
