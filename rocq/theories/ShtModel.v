(** Asking other processes to shut down: ecal/core/src/ecal_util.cpp 185-296 (whom a call of
    Util::ShutdownProcess, ShutdownProcesses or ShutdownCore addresses, and how one process is
    asked) and ecal/core/src/ecal.cpp 37-49 and 208-212 (how the asked process notices), on top of
    the events of EvtModel.v, which every process reaches by the same name.

    For one process id there is one event name; [sevt] is everything that concerns it: the files
    behind the name, the handle of the process with this id (number 0; a static variable, opened by
    its first call of Ok and never closed), and one handle for each request (number S r), which
    opens the event, sets it and closes it.  One step is one system call or one critical section of
    a request or of a call of Ok, so requests and calls run at the same time in any order.

    Simplified: one thread of a process calls Ok at a time, and it does so while eCAL is initialised
    (before, Ok answers no without looking at the event, ecal.cpp 210; see LifeModel.v); failing
    system calls other than those of EvtModel.v are left out, and so is what is printed on the
    console (ecal_util.cpp 229).  The list of processes comes from the monitoring (MonModel.v): it is
    an argument here.  GetMonitoring (186-198) starts the monitoring when it is not running and waits
    one second before it asks for the list; that it is not stopped again is not modelled. *)
From Verif Require Import Base Sample EvtModel NamModel.

(** ** One event *)

(** What a request still has to do: nothing recorded: open and set; [false]: close; [true]: done. *)
Record sevt := SEvt { se_sys : esys; se_reqs : list (nat * bool) }.
Definition sevt_init : sevt := SEvt esys_init [].

(** The next step of a caller of gOpenNamedEvent with ownership (ecal_event.cpp 399-413, 323-334),
    and [last] once the event is open. *)
Definition open_then (s : esys) (c : nat) (last : eop) : eop :=
  match ephase_of s c with
  | EAbsent => VOpen c true
  | EMissing _ => VExcl c
  | ECreating _ _ false => VTrunc c
  | ECreating _ _ true => VInit c
  | ENull _ | EOpened _ _ _ => last
  end.

Inductive shop :=
| SOk               (* one step of a call of Ok of the process, ecal.cpp 39-48, 208-212 *)
| SAsk (r : nat)    (* one step of request r, ShutdownProcess(int), ecal_util.cpp 223-233 *)
| SDie              (* the process ends; its handle is gone without having been closed *)
| SGone (r : nat).  (* the requesting process ends in the middle of its request *)

(** [None]: SIGBUS in the process that made the step.  The answer is that of a call of Ok. *)
Definition se_step (op : shop) (s : sevt) : option (sevt * option bool) :=
  match op with
  | SOk =>
      match e_step (open_then (se_sys s) 0 (VWait 0 true)) (se_sys s) with
      | None => None
      | Some (e, r) => Some (SEvt e (se_reqs s), match r with VGot b => Some (negb b) | _ => None end)
      end
  | SAsk r =>
      let c := S r in
      match aget r (se_reqs s) with
      | Some true => Some (s, None)
      | Some false =>
          match e_step (VClose c) (se_sys s) with
          | None => None
          | Some (e, _) => Some (SEvt e (aset r true (se_reqs s)), None)
          end
      | None =>
          let o := open_then (se_sys s) c (VSet c) in
          match e_step o (se_sys s) with
          | None => None
          | Some (e, _) => Some (SEvt e (match o with VSet _ => aset r false (se_reqs s) | _ => se_reqs s end), None)
          end
      end
  | SDie => Some (SEvt (set_ephase (se_sys s) 0 EAbsent) (se_reqs s), None)
  | SGone r =>
      match aget r (se_reqs s) with
      | Some true => Some (s, None)
      | _ => Some (SEvt (set_ephase (se_sys s) (S r) EAbsent) (aset r true (se_reqs s)), None)
      end
  end.

(** A run gives the answers of the calls of Ok that ended in it. *)
Fixpoint se_run (ops : list shop) (s : sevt) : option (sevt * list bool) :=
  match ops with
  | [] => Some (s, [])
  | op :: ops' =>
      match se_step op s with
      | None => None
      | Some (s1, a) =>
          match se_run ops' s1 with
          | None => None
          | Some (s2, l) => Some (s2, match a with Some b => b :: l | None => l end)
          end
      end
  end.

(** ** All processes of a host: one event for each process id *)

Definition shsys := list (text * sevt).
Definition evt_of (s : shsys) (name : text) : sevt := match aget name s with Some e => e | None => sevt_init end.
(** The process and those who ask it build the same name, ecal.cpp 42 and ecal_util.cpp 225. *)
Definition sh_step (pid : Z) (op : shop) (s : shsys) : option (shsys * option bool) :=
  match se_step op (evt_of s (shutdown_event pid)) with
  | None => None
  | Some (e, a) => Some (aset (shutdown_event pid) e s, a)
  end.
Fixpoint sh_run (ops : list (Z * shop)) (s : shsys) : option (shsys * list (Z * bool)) :=
  match ops with
  | [] => Some (s, [])
  | (pid, op) :: ops' =>
      match sh_step pid op s with
      | None => None
      | Some (s1, a) =>
          match sh_run ops' s1 with
          | None => None
          | Some (s2, l) => Some (s2, match a with Some b => (pid, b) :: l | None => l end)
          end
      end
  end.

(** ** Whole calls, nothing else happening meanwhile *)

(** Ok: at most the four steps that open the event and the look at it. *)
Fixpoint ok_call (fuel : nat) (s : sevt) : option (sevt * bool) :=
  match fuel with
  | O => None
  | S n =>
      match se_step SOk s with
      | None => None
      | Some (s1, Some b) => Some (s1, b)
      | Some (s1, None) => ok_call n s1
      end
  end.
Fixpoint ask_call (fuel : nat) (r : nat) (s : sevt) : option sevt :=
  match fuel with
  | O => Some s
  | S n =>
      match se_step (SAsk r) s with
      | None => None
      | Some (s1, _) => if eqb (aget r (se_reqs s1)) (Some true) then Some s1 else ask_call n r s1
      end
  end.
Inductive shcall := WOk | WAsk (r : nat) | WDie.
Definition sw_step (c : shcall) (s : sevt) : option (sevt * option bool) :=
  match c with
  | WOk => match ok_call 5 s with Some (s1, b) => Some (s1, Some b) | None => None end
  | WAsk r => match ask_call 6 r s with Some s1 => Some (s1, None) | None => None end
  | WDie => se_step SDie s
  end.
Fixpoint sw_run (cs : list shcall) (s : sevt) : option (sevt * list bool) :=
  match cs with
  | [] => Some (s, [])
  | c :: cs' =>
      match sw_step c s with
      | None => None
      | Some (s1, a) =>
          match sw_run cs' s1 with
          | None => None
          | Some (s2, l) => Some (s2, match a with Some b => b :: l | None => l end)
          end
      end
  end.

(** ** Whom the calls address *)

(** What is used of an entry of the monitoring's list of processes. *)
Record mproc := MProc { mp_pid : Z; mp_pname : text; mp_uname : text; mp_host : text }.

(** The nine units of eCAL itself, ecal_util.cpp 244-252 and 275-283. *)
Definition is_core_unit (u : text) : bool :=
  eqb u (str "eCALMon") || eqb u (str "eCALPlay") || eqb u (str "eCALPlayGUI") || eqb u (str "eCALRec")
  || eqb u (str "eCALRecGUI") || eqb u (str "eCALSys") || eqb u (str "eCALSysGUI") || eqb u (str "eCALStop")
  || eqb u (str "eCALTopic").
(** ShutdownProcess(std::string) 200-221; eCAL_Util_ShutdownUnitName of the C interface
    (cimpl/ecal_util_cimpl.cpp 33-37) passes its argument on to it. *)
Definition ask_name (host name : text) (l : list mproc) : list Z :=
  map mp_pid (filter (fun p => eqb (mp_pname p) name && eqb (mp_host p) host) l).
(** ShutdownProcesses 235-264: the long condition is the negation of the one of ShutdownCore. *)
Definition ask_users (host : text) (l : list mproc) : list Z :=
  map mp_pid (filter (fun p => negb (is_core_unit (mp_uname p)) && eqb (mp_host p) host) l).
(** ShutdownCore 266-296. *)
Definition ask_core (host : text) (l : list mproc) : list Z :=
  map mp_pid (filter (fun p => is_core_unit (mp_uname p) && eqb (mp_host p) host) l).

(** The requests of one such call, one after another (217-220, 260-263, 292-295), by a caller whose
    requests are numbered from [r]; nothing else happens meanwhile. *)
Fixpoint ask_all (r : nat) (pids : list Z) (s : shsys) : option shsys :=
  match pids with
  | [] => Some s
  | pid :: pids' =>
      match ask_call 6 r (evt_of s (shutdown_event pid)) with
      | None => None
      | Some e => ask_all (S r) pids' (aset (shutdown_event pid) e s)
      end
  end.
