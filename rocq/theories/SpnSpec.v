(** Vocabulary for starting programs. *)
From Verif Require Import Base Sample StrModel StrSpec SpnModel.

(** StartProcess has returned this. *)
Definition returned (s : spawn) (z : Z) : Prop := m_at s = MDone /\ m_pid s = z.
(** The program was loaded. *)
Definition loaded (s : spawn) : Prop := g_at s = GRuns \/ g_at s = GEnded.
(** It has not been loaded, and nothing is left that could load it. *)
Definition failed (s : spawn) : Prop := g_at s = GNone \/ g_at s = GDead \/ g_at s = GUnlock \/ exists n, g_at s = GErrno n.
Definition uninterrupted (l : list act) : Prop := ~ In AIntr l.
Definition in_time (l : list act) : Prop := ~ In ATimeout l.
(** All system calls before execvp succeed. *)
Definition healthy (e : env) : Prop := e_mkfifo e = true /\ e_fork1 e = true /\ e_fork2 e = true /\ e_chdir e = true /\ e_lock e = true /\ (e_term e = TNone \/ e_term e = TGood).
(** Process ids and errno are positive. *)
Definition sane (e : env) : Prop := (0 < e_gpid e)%Z /\ (0 <= e_exec e)%Z.
(** The same with another terminal emulator. *)
Definition with_terminal (t : terminal) (e : env) : env :=
  Env (e_mkfifo e) (e_fork1 e) (e_fork2 e) (e_chdir e) (e_lock e) (e_exec e) (e_pipe e) (e_block e) (e_gpid e) t.
(** An action that changes nothing is no step. *)
Definition moves (e : env) (a : act) (s : spawn) : Prop := s_step e a s <> s.
(** Every action counts. *)
Fixpoint busy (e : env) (l : list act) (s : spawn) : Prop :=
  match l with [] => True | a :: l' => moves e a s /\ busy e l' (s_step e a s) end.

(** ** Examples *)
Definition sp_ok : env := Env true true true true true 0 false false 77 TNone.
Definition sp_enoent : env := Env true true true true true 2 false false 77 TNone.
Definition sp_no_lock (n : Z) : env := Env true true true true false n false false 77 TNone.
Definition sp_block : env := Env true true true true true 0 false true 77 TNone.
Definition sp_no_fifo : env := Env false true true true true 0 false false 77 TNone.
Definition sp_no_fork : env := Env true false true true true 0 false false 77 TNone.
Definition sp_run : list act := [AMain; AGrand; AGrand; AMain; AGrand; AGrand; AMain; AMain; AGrand; AGrand; AGrand; AMain; AMain; AMain].
Definition sp_late : list act := [AMain; AMain; ATimeout; AMain; AGrand; AGrand; AGrand; AGrand].
Definition sp_stuck : list act := [AMain; AGrand; AGrand; AMain; ATimeout; AGrand; AMain; AGrand; AGrand].
Definition sp_intr : list act := [AMain; AGrand; AGrand; AMain; AGrand; AGrand; AMain; AMain; AIntr; AMain; AMain; AGrand; AGrand; AGrand].
Definition sp_no_chdir : env := Env true true true false true 0 false false 77 TNone.
Definition sp_args : list text := [str "/usr/bin/app"; str "a b"; str "say ""x"""; []; str "C:\d"].
