(** Starting another program: Process::StartProcess on Linux with and without a terminal emulator,
    and the command line a process reports about itself.
    ecal/core/src/ecal_process.cpp 988-1547, 921-986, 627-704, ecal_process_stub.cpp 30-119.

    The caller forks twice; the grandchild becomes the new program.  The caller learns its process
    id through a FIFO and whether execvp failed through a locked file.  With a terminal emulator the
    grandchild becomes that, which is expected to start ecal_process_stub; the stub then does what
    the grandchild does otherwise, so [gphase] is the stub's from [GLock] on and [e_gpid] its process
    id.  The interleaving is given from outside, as is which system calls fail.
    Simplified: write and read of the 4 bytes are whole; signals other than
    those interrupting select and flock, and SIGPIPE, are left out. *)
From Verif Require Import Base Sample StrModel.

(** No terminal emulator, one that cannot be executed, one that never starts the stub, one that does. *)
Inductive terminal := TNone | TMissing | TIdle | TGood.
(** Which calls succeed; [e_exec] is 0 or the errno of execvp; [e_pipe]: SIGPIPE is ignored. *)
Record env := Env {
  e_mkfifo : bool; e_fork1 : bool; e_fork2 : bool; e_chdir : bool; e_lock : bool; e_exec : Z; e_pipe : bool; e_block : bool; e_gpid : Z;
  e_term : terminal }.

(** Where the caller is, 1379-1528. *)
Inductive mphase :=
| MFork           (* mkfifo 1077, fork 1090 *)
| MOpen           (* the child is waited for 1386, open of the FIFO 1407 *)
| MSelect         (* select 1426 *)
| MLockOpen       (* open of the lock file 1466 *)
| MLock           (* flock 1474 and read 1486 *)
| MWait           (* waitpid 1513 *)
| MUnlink         (* unlink 1518-1522 *)
| MDone.
(** Where the grandchild is, 1134-1373. *)
Inductive gphase :=
| GNone           (* not there *)
| GStart          (* chdir 1143 *)
| GTerm           (* execvp of the terminal emulator 1294 *)
| GShell          (* the terminal emulator *)
| GZero           (* open of the FIFO 1336 *)
| GZeroing        (* blocked in it *)
| GZeroWrite      (* write of 0 1345 *)
| GLock           (* open and flock of the lock file 1226-1230; stub 56-59 *)
| GOpen           (* open of the FIFO 1259; stub 73 *)
| GOpening        (* blocked in it *)
| GWrite          (* write of the process id 1268; stub 76 *)
| GExec           (* execvp 1294; stub 97 *)
| GErrno (n : Z)  (* write of errno to the lock file 1321; stub 106 *)
| GUnlock         (* 1362-1373; stub 114 *)
| GRuns           (* the new program *)
| GEnded          (* it has ended *)
| GDead.
(** Whose child the grandchild is. *)
Inductive parent := ByCaller | ByChild | ByInit.
Record spawn := Spawn {
  m_at : mphase; m_pid : Z; g_at : gphase;
  f_name : bool;             (* the FIFO exists by name *)
  f_open : bool;             (* the caller has it open *)
  f_data : option Z;         (* bytes in it *)
  l_name : bool;             (* the lock file exists by name *)
  l_data : option Z;         (* its contents *)
  l_held : bool;             (* the grandchild holds the lock *)
  g_parent : parent }.
Definition spawn0 : spawn := Spawn MFork 0 GNone false false None false None false ByChild.

Definition m_to (p : mphase) (s : spawn) : spawn := Spawn p (m_pid s) (g_at s) (f_name s) (f_open s) (f_data s) (l_name s) (l_data s) (l_held s) (g_parent s).
Definition m_got (z : Z) (s : spawn) : spawn := Spawn (m_at s) z (g_at s) (f_name s) (f_open s) (f_data s) (l_name s) (l_data s) (l_held s) (g_parent s).
Definition g_to (p : gphase) (s : spawn) : spawn := Spawn (m_at s) (m_pid s) p (f_name s) (f_open s) (f_data s) (l_name s) (l_data s) (l_held s) (g_parent s).
Definition set_fifo (name opn : bool) (d : option Z) (s : spawn) : spawn := Spawn (m_at s) (m_pid s) (g_at s) name opn d (l_name s) (l_data s) (l_held s) (g_parent s).
Definition set_lock (name : bool) (d : option Z) (held : bool) (s : spawn) : spawn := Spawn (m_at s) (m_pid s) (g_at s) (f_name s) (f_open s) (f_data s) name d held (g_parent s).

(** After the FIFO is closed: the lock file matters if a process id came, 1463. *)
Definition after_fifo (s : spawn) : spawn :=
  let s1 := set_fifo (f_name s) false None s in if (0 <? m_pid s1)%Z then m_to MLockOpen s1 else m_to MUnlink s1.
(** The file has been read, 1486-1504. *)
Definition after_lock (s : spawn) : spawn :=
  let z := match l_data s with Some n => if (n =? 0)%Z then m_pid s else 0%Z | None => m_pid s end in m_to MWait (m_got z s).

(** waitpid (1513) blocks if the program is a child of the caller and has not ended; otherwise it
    fails at once. *)
Definition waits (e : env) (s : spawn) : bool :=
  match g_parent s, g_at s with
  | ByCaller, GEnded => false
  | ByCaller, _ => (e_block e && (0 <? m_pid s)%Z)%bool
  | _, _ => false
  end.
(** The child ends (1132) and is waited for (1386): init adopts the grandchild. *)
Definition adopted (s : spawn) : spawn := Spawn (m_at s) (m_pid s) (g_at s) (f_name s) (f_open s) (f_data s) (l_name s) (l_data s) (l_held s) ByInit.
(** A step of the caller; a blocked one stays where it is. *)
Definition m_step (e : env) (s : spawn) : spawn :=
  match m_at s with
  | MFork =>
      let s1 := set_fifo (e_mkfifo e) false None s in
      if e_fork1 e then m_to MOpen (if e_fork2 e then adopted (g_to GStart s1) else s1) else m_to MDone s1
  | MOpen =>
      if f_name s then
        let s1 := m_to MSelect (set_fifo true true (f_data s) s) in
        match g_at s with GOpening => g_to GWrite s1 | GZeroing => g_to GZeroWrite s1 | _ => s1 end
      else after_fifo s
  | MSelect => match f_data s with Some z => after_fifo (m_got z s) | None => s end
  | MLockOpen => if l_name s then m_to MLock s else m_to MWait s
  | MLock => if l_held s then s else after_lock s
  | MWait => if waits e s then s else m_to MUnlink s
  | MUnlink => m_to MDone (set_lock false (l_data s) (l_held s) (set_fifo false false None s))
  | MDone => s
  end.
(** 5 seconds have passed in select, 1420-1435; or a signal interrupts select or flock. *)
Definition m_timeout (s : spawn) : spawn := match m_at s with MSelect => after_fifo s | _ => s end.
Definition m_intr (s : spawn) : spawn := match m_at s with MSelect => after_fifo s | MLock => after_lock s | _ => s end.
(** A step of the grandchild. *)
Definition g_step (e : env) (s : spawn) : spawn :=
  match g_at s with
  | GStart => if e_chdir e then g_to (match e_term e with TNone => GLock | _ => GTerm end) s else g_to GDead s
  | GTerm => g_to (match e_term e with TMissing => GZero | _ => GShell end) s
  | GShell => match e_term e with TGood => g_to GLock s | _ => s end
  | GZero => if f_name s then if f_open s then g_to GZeroWrite s else g_to GZeroing s else g_to GDead s
  | GZeroWrite => g_to GDead (if f_open s then set_fifo (f_name s) true (Some 0%Z) s else s)
  | GLock => g_to GOpen (if e_lock e then set_lock true None true s else s)
  | GOpen => if f_name s then if f_open s then g_to GWrite s else g_to GOpening s else g_to GExec s
  | GWrite =>
      if f_open s then g_to GExec (set_fifo (f_name s) true (Some (e_gpid e)) s)
      else if e_pipe e then g_to GExec s else g_to GDead (set_lock (l_name s) (l_data s) false s)
  | GExec => if (e_exec e =? 0)%Z then g_to GRuns (set_lock (l_name s) (l_data s) false s) else g_to (GErrno (e_exec e)) s
  | GErrno n => g_to GUnlock (if e_lock e then set_lock (l_name s) (Some n) (l_held s) s else s)
  | GUnlock => g_to GDead (set_lock (l_name s) (l_data s) false s)
  | GNone | GZeroing | GOpening | GRuns | GEnded | GDead => s
  end.
(** The new program ends. *)
Definition g_end (s : spawn) : spawn := match g_at s with GRuns => g_to GEnded s | _ => s end.
Inductive act := AMain | AGrand | ATimeout | AIntr | AEnd.
Definition s_step (e : env) (a : act) (s : spawn) : spawn :=
  match a with AMain => m_step e s | AGrand => g_step e s | ATimeout => m_timeout s | AIntr => m_intr s | AEnd => g_end s end.
Definition s_run (e : env) (l : list act) : spawn := fold_left (fun s a => s_step e a s) l spawn0.

(** The argument vector, 1173-1204. *)
Definition exec_argv (name args : text) : list text := name :: to_argv args.
Definition stub_name : text := str "ecal_process_stub".
Definition stub_version : text := str "eCAL Process Stub 1.0.0".
(** With a terminal emulator, 1186-1204. *)
Definition terminal_argv (terminal fifo lock name args : text) : list text :=
  to_argv terminal ++ stub_name :: fifo :: lock :: exec_argv name args.
(** main of ecal_process_stub, 32-119: which FIFO, lock file and program it uses for its arguments. *)
Inductive stub_plan := StubUsage | StubVersion | StubRun (fifo lock : text) (argv : list text).
Definition stub_main (argv : list text) : stub_plan :=
  match argv with
  | _ :: fifo :: lock :: a :: more => StubRun fifo lock (a :: more)
  | [_; x] => if eqb x (str "--version") then StubVersion else StubUsage
  | _ => StubUsage
  end.
(** getTerminalEmulatorCommand, 627-704: the variable DISPLAY, the configured command, what the stub
    prints ([None]: popen failed).  Empty: no terminal emulator. *)
Definition terminal_command (display : option text) (command : text) (out : option text) : text :=
  match display with
  | None | Some [] => []
  | Some _ =>
      match command with
      | [] => []
      | _ => match out with None => [] | Some o => if eqb (str_trim o) stub_version then command else [] end
      end
  end.
(** /proc/self/cmdline: the arguments, each ended by a zero. *)
Definition cmdline (argv : list text) : text := flat_map (fun a => a ++ [0%Z]) argv.
(** std::getline with the delimiter 0, 934-938. *)
Fixpoint getlines (cur s : text) : list text :=
  match s with
  | [] => match cur with [] => [] | _ => [cur] end
  | c :: s' => if (c =? 0)%Z then cur :: getlines [] s' else getlines (cur ++ [c]) s'
  end.
(** GetProcessParameter, 943-985: the same escaping as ToCommandLine. *)
Definition process_parameter (cmd : text) : text := str_join [32%Z] (map escape_arg (getlines [] cmd)).
