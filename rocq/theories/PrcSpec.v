(** Vocabulary for what a process says of itself. *)
From Verif Require Import Base Sample PrcModel.
From Verif Require Import StrModel StrSpec.

(** ** Histories *)
(** Does an action ask for the id? *)
Definition needs_id (a : pact) : bool :=
  match a with AskId | AskIdText | Register | Unregister => true | _ => false end.
Definition is_fork (a : pact) : bool := match a with Forked _ => true | _ => false end.
Definition is_change (a : pact) : bool := match a with Change _ => true | _ => false end.
(** The id the process had from the operating system when it first asked for it; now [pid]. *)
Fixpoint first_pid (pid : Z) (l : list pact) : option Z :=
  match l with
  | [] => None
  | Forked p :: l' => first_pid p l'
  | a :: l' => if needs_id a then Some pid else first_pid pid l'
  end.
(** Every id an operating system gives is a positive int. *)
Definition pid_ok (p : Z) : Prop := (0 < p < 2147483648)%Z.
Definition forks_ok (l : list pact) : Prop := forall p, In (Forked p) l -> pid_ok p.

(** The id and the sender's name within what is said. *)
Definition spoken_id (a : saying) : option Z :=
  match a with Number z => Some z | Says m => Some (sm_pid m) | _ => None end.

(** The severity, the level and the text set last. *)
Fixpoint latest_level (now : Z * Z) (l : list pact) : Z * Z :=
  match l with
  | [] => now
  | SetState v w _ :: l' => latest_level (v, w) l'
  | _ :: l' => latest_level now l'
  end.
Fixpoint latest_info (now : text) (l : list pact) : text :=
  match l with
  | [] => now
  | SetState _ _ (Some i) :: l' => latest_info i l'
  | _ :: l' => latest_info now l'
  end.
(** The components started since the last shutdown. *)
Fixpoint started (now : Z) (l : list pact) : Z :=
  match l with
  | [] => now
  | StartUp _ c :: l' => started (Z.lor now c) l'
  | ShutDown :: l' => started 0 l'
  | _ :: l' => started now l'
  end.

(** ** Names *)
(** [n] is the last part of the path [p]. *)
Definition base_name (p n : text) : Prop :=
  ~ In 47%Z n /\ (p = n \/ exists d, p = d ++ 47%Z :: n).
(** The name given to the unit last, with a name that is not empty. *)
Fixpoint given_unit (now : text) (l : list pact) : text :=
  match l with
  | [] => now
  | SetUnit (Some (c :: n)) :: l' => given_unit (c :: n) l'
  | StartUp (Some (c :: n)) _ :: l' => given_unit (c :: n) l'
  | _ :: l' => given_unit now l'
  end.
(** No unit name is taken back: nobody starts with an empty one. *)
Definition keeps_unit (a : pact) : Prop := match a with StartUp (Some []) _ => False | _ => True end.

(** ** Parameters *)
(** What the kernel shows of the arguments of a process: each one followed by a zero byte. *)
Definition shown (args : list text) : text := flat_map (fun a => a ++ [0%Z]) args.
Definition no_zero (a : text) : Prop := ~ In 0%Z a.

(** ** Components *)
Definition has_bit (mask bit : Z) : bool := negb (Z.land mask bit =? 0)%Z.
Definition named (mask : Z) : list text :=
  (if has_bit mask 1 then [str "pub"] else []) ++ (if has_bit mask 2 then [str "sub"] else [])
  ++ (if has_bit mask 16 then [str "log"] else []) ++ (if has_bit mask 32 then [str "time"] else []).

(** The registered time synchronisation: 1 for a synchronised gate in realtime mode, 2 in replay
    mode; the name of its module. *)
Definition tells_time (g : option (bool * sync_kind * text)) (state : Z) (name : text) : Prop :=
  name = match g with Some (_, n) => n | None => [] end /\
  (state = 1%Z <-> exists n, g = Some (true, KindRealtime, n)) /\ (state = 2%Z <-> exists n, g = Some (true, KindReplay, n)).

(** ** Sizes *)
Definition unit_size (u : text) : Z :=
  if eqb u (str "kByte") then 1024 else if eqb u (str "MByte") then 1048576 else 1.

(** ** Threads *)
Definition got (t : text) (s : idr) (k : nat) : Prop := nth_error (i_threads s) k = Some (IdGot t).

(** ** Examples *)
Definition px_os : osys :=
  Osys (Some (str "box")) (Some (str "/opt/bin/rec")) (Some (shown [str "rec"; str "a b"; []; str "-x"])) [] (Some (true, KindReplay, str "sim")) (str "5.14").
Definition px_later : osys := Osys (Some (str "other")) None None (str "grp") None (str "5.14").
Definition px_quiet : osys := Osys None None None [] None (str "5.14").
Definition px_run : list pact :=
  [StartUp (Some []) 55; SetState 1 2 (Some (str "fine")); Register; Change px_later; SetState 3 4 None].
Definition px_sample (l : list pact) (a : pact) : sample :=
  match p_says l a (self0 px_os 77) with Says m => m | _ => sample0 end.
