(** Model of the path functions: lib/ecal_utils/src/filesystem.cpp 254-297 and 484-874,
    lib/ecal_utils/include/ecal_utils/filesystem.h 32-43, on a system that is not Windows
    (OsStyle::Current is Unix).

    Simplified: the four regular expressions of GetAbsoluteRoot are written as direct tests; the
    file system is a table from component lists to directory or file, without symbolic links,
    permissions or limits, and mkdir(2) and stat(2) are the only calls. *)
From Verif Require Import Base Sample StrModel.

Inductive style := Combined | Windows | Unix.
Definition slash : Z := 47%Z.
Definition dot : text := [46%Z].
Definition dots : text := [46%Z; 46%Z].

(** ChangeSeperators 740-759 with the output style Unix; ToUnixSeperators, ToNativeSeperators 761-769. *)
Definition is_sep (st : style) (c : Z) : bool := ((c =? 47) || match st with Unix => false | _ => c =? 92 end)%Z%bool.
Definition to_unix (st : style) (s : text) : text := map (fun c => if is_sep st c then slash else c) s.

(** GetAbsoluteRoot 484-521. *)
Definition letter (c : Z) : bool := (((65 <=? c) && (c <=? 90)) || ((97 <=? c) && (c <=? 122)))%Z%bool.
Definition win_sep (c : Z) : bool := ((c =? 47) || (c =? 92))%Z%bool.
Definition win_drive (s : text) : bool :=               (* win_drive_with_slash, win_drive_only *)
  match s with
  | a :: b :: r => (letter a && (b =? 58)%Z && (match r with c :: _ => win_sep c | [] => false end || forallb (Z.eqb 32) r))%bool
  | _ => false
  end.
Definition win_network (s : text) : bool :=             (* win_network_drive *)
  match s with a :: b :: c :: _ => (win_sep a && win_sep b && negb (win_sep c))%bool | _ => false end.
Fixpoint up_to_sep (s : text) : text := match s with [] => [] | c :: s' => if win_sep c then [] else c :: up_to_sep s' end.
Definition abs_root (st : style) (s : text) : text :=
  let first := match s with [] => [] | c :: _ => if match st with Unix => (c =? 47)%Z | Combined => win_sep c | Windows => false end then [c] else [] end in
  match st with
  | Unix => first
  | _ => if win_drive s then firstn 2 s else if win_network s then firstn 2 s ++ up_to_sep (skipn 2 s) else first
  end.
Definition is_absolute (st : style) (s : text) : bool := negb (eqb (abs_root st s) []).

(** CleanPathComponentList 543-607; the components are kept in reverse order. *)
Definition clean_step (ab : bool) (stk : list text) (p : text) : list text :=
  if eqb p dot then stk
  else if eqb p dots then
    if ab then tl stk
    else match stk with [] => [p] | q :: r => if eqb q dots then p :: stk else r end
  else p :: stk.
Definition clean_parts (ab : bool) (ps : list text) : list text :=
  match ps with
  | p :: r => if (eqb p dot && negb ab)%bool then fold_left (clean_step ab) r [p] else fold_left (clean_step ab) ps []
  | [] => []
  end.
Definition clean_list (st : style) (s : text) : list text :=
  match s with
  | [] => []
  | _ => rev (clean_parts (is_absolute st s) (str_split [slash] (skipn (length (abs_root st s)) (to_unix st s))))
  end.

(** CleanPath 609-653; None: back() of an empty string (line 645), which is undefined. *)
Definition ends_slash (s : text) : bool := match rev s with c :: _ => (c =? 47)%Z | [] => false end.
Definition clean (st : style) (s : text) : option text :=
  match s with
  | [] => Some []
  | _ =>
      let root := to_unix st (abs_root st s) in
      let head := match root with [] => [] | _ => root ++ if ends_slash root then [] else [slash] end in
      let t := head ++ str_join [slash] (clean_list st s) in
      if ends_slash (to_unix st s) then
        match t with [] => None | _ => Some (if ends_slash t then t else t ++ [slash]) end
      else Some t
  end.

(** AbsolutePath 655-658 and 660-670. *)
Definition absolute_from (base rel : text) (st : style) : option text :=
  match clean Combined base with Some b => clean st (b ++ [slash] ++ rel) | None => None end.
Definition absolute (cwd rel : text) (st : style) : option text :=
  if is_absolute st rel then clean st rel else clean Combined (cwd ++ [slash] ++ rel).

(** RelativePath 672-707.  The loop leaves 0 when no component differs. *)
Fixpoint first_diff (a b : list text) : option nat :=
  match a, b with
  | x :: a', y :: b' => if eqb x y then option_map S (first_diff a' b') else Some 0
  | _, _ => None
  end.
Fixpoint ups (n : nat) : text := match n with 0 => [] | S n' => dots ++ [slash] ++ ups n' end.
Definition relative (base path : text) (st : style) : text :=
  let b := clean_list st base in
  let p := clean_list st path in
  let same := match first_diff p b with Some n => n | None => 0 end in
  (match same with 0 => [] | _ => ups (length b - same) end) ++ str_join [slash] (skipn same p).

(** IsEqual 771-835 with OsStyle::Unix. *)
Definition is_equal (cwd p q : text) : option bool :=
  match absolute cwd p Unix, absolute cwd q Unix with
  | Some a, Some b =>
      Some (eqb (abs_root Unix a) (abs_root Unix b) && eqb (clean_list Unix a) (clean_list Unix b))%bool
  | _, _ => None
  end.

(** FileName 837-856, BaseName 858-873. *)
Definition file_name (st : style) (s : text) : text :=
  match s with
  | [] => []
  | _ => if is_sep st (last s 0%Z) then [] else last (clean_list st s) []
  end.
Fixpoint up_to_dot (s : text) : text := match s with [] => [] | c :: s' => if (c =? 46)%Z then [] else c :: up_to_dot s' end.
Definition base_name (st : style) (s : text) : text := up_to_dot (file_name st s).

(** ** Creating directories *)
(** The file system: for each existing path but the root, whether it is a directory. *)
Definition files := list (list text * bool).
Inductive errno := ENone | ENoEnt | ENotDir | EExist.
(** mkdir(2): every ancestor must exist and be a directory; the last component must not exist. *)
Fixpoint mkdir_at (fs : files) (done ps : list text) : files * errno :=
  match ps with
  | [] => (fs, EExist)
  | p :: r =>
      match aget (done ++ [p]) fs, r with
      | None, [] => (aset (done ++ [p]) true fs, ENone)
      | None, _ => (fs, ENoEnt)
      | Some _, [] => (fs, EExist)
      | Some true, _ => mkdir_at fs (done ++ [p]) r
      | Some false, _ => (fs, ENotDir)
      end
  end.
(** MkDir 241-252: an absolute path without dot components; the empty path does not exist. *)
Definition mk_dir (fs : files) (s : text) : files * errno :=
  match s with [] => (fs, ENoEnt) | _ => mkdir_at fs [] (str_split [slash] s) end.
(** stat(2) of such a path. *)
Fixpoint stat_dir (fs : files) (done ps : list text) : bool :=
  match ps with
  | [] => true
  | p :: r => match aget (done ++ [p]) fs with Some true => stat_dir fs (done ++ [p]) r | _ => false end
  end.
Definition is_dir (fs : files) (s : text) : bool := match s with [] => false | _ => stat_dir fs [] (str_split [slash] s) end.
(** The text before the last separator, find_last_of and substr 280-283. *)
Fixpoint drop_name (r : text) : option text := match r with [] => None | c :: r' => if (c =? 47)%Z then Some (rev r') else drop_name r' end.
(** MkPath 254-297; None: undefined (CleanPath). *)
Fixpoint mk_path (fuel : nat) (st : style) (fs : files) (s : text) : option (files * bool) :=
  match fuel with
  | 0 => Some (fs, false)
  | S f =>
      match clean st s with
      | None => None
      | Some [] => Some (fs, false)
      | Some t0 =>
          let t := to_unix st t0 in
          let t := if ends_slash t then removelast t else t in
          match mk_dir fs t with
          | (fs', ENone) => Some (fs', true)
          | (fs', ENoEnt) =>
              match drop_name (rev t) with
              | None => Some (fs', false)
              | Some d =>
                  match mk_path f Unix fs' d with
                  | Some (fs2, true) => let (fs3, e) := mk_dir fs2 t in Some (fs3, match e with ENone => true | _ => false end)
                  | o => o
                  end
              end
          | (fs', EExist) => Some (fs', is_dir fs' t)
          | (fs', ENotDir) => Some (fs', false)
          end
      end
  end.
Definition make_path (st : style) (fs : files) (s : text) : option (files * bool) := mk_path (S (length s)) st fs s.
