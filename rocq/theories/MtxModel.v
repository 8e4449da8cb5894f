(** Named mutexes (processes sharing a lock through a file in shared memory).

    ecal/core/src/io/mtx/linux/ecal_named_mutex_impl.cpp (the plain mutex, used by memory
    files of topics) and ecal_named_mutex_robust_clocklock_impl.cpp (the recoverable mutex,
    used by the memory file that distributes registration events).  [robust] selects the
    implementation.  Everything concerns one mutex name; files are numbered because a name
    can be unlinked and created again.  A client is one mutex object used by one thread.

    Each step below is one critical section or one system call, so that the steps of
    different clients interleave at this granularity.  Not modelled: failing system calls
    other than the ones that fail because the name exists or does not exist, and the
    initialisation of the pthread objects of the plain mutex (only the effect of
    initialisation on the lock state is). *)
From Verif Require Import Base.

(** The file: [mf_sized] is set by ftruncate; [mf_lock] is the lock state.  The plain
    mutex (struct named_mutex, ecal_named_mutex_impl.cpp 36-41) only stores whether it is
    locked: which client is recorded is never looked at.  The robust one (struct
    named_mutex, ecal_named_mutex_robust_clocklock_impl.cpp 36-39) is a pthread mutex that
    knows its owner.  [mf_dead]: the owner died (robust mutexes only). *)
Record mfile := MFile { mf_sized : bool; mf_lock : option nat; mf_dead : bool }.

(** Client: [Missing] could not open the name and is about to create it, [Creating id b]
    has created the file ([b]: and set its size), [NoHandle] failed to do both,
    [Opened id owner waiting] has it mapped. *)
Inductive phase :=
| Absent
| Missing
| Creating (id : nat) (sized : bool)
| NoHandle
| Opened (id : nat) (owner waiting : bool).

Record msys := MSys { ms_next : nat; ms_files : list (nat * mfile); ms_link : option nat; ms_cls : list (nat * phase) }.
Definition msys_init : msys := MSys 0 [] None [].

Definition phase_of (s : msys) (c : nat) : phase := match aget c (ms_cls s) with Some p => p | None => Absent end.
Definition set_phase (s : msys) (c : nat) (p : phase) : msys := MSys (ms_next s) (ms_files s) (ms_link s) (aset c p (ms_cls s)).
Definition set_file (s : msys) (id : nat) (f : mfile) : msys := MSys (ms_next s) (aset id f (ms_files s)) (ms_link s) (ms_cls s).

Inductive xop :=
| XOpen (c : nat)              (* constructor: shm_open of an existing file *)
| XExcl (c : nat)              (* named_mutex_create: shm_open O_CREAT|O_EXCL *)
| XTrunc (c : nat)             (* ftruncate *)
| XInit (c : nat)              (* initialisation; the constructor returns *)
| XLock (c : nat) (try : bool) (* Lock; try: timeout 0 *)
| XWake (c : nat)              (* a blocked Lock is woken up, signalled or not *)
| XTimeout (c : nat)           (* a blocked Lock runs into its timeout *)
| XUnlock (c : nat)
| XDrop (c : nat)              (* DropOwnership *)
| XClose (c : nat)             (* destructor *)
| XDie (c : nat).              (* the process is killed *)

(** [XRefused]: the call is not possible in this phase; nothing happened.  [XGot b r]:
    Lock returned [b], WasRecovered is [r].  [XBlocked]: Lock has not returned yet.
    [XClosed u]: [u] says whether the name was unlinked. *)
Inductive xres := XRefused | XDone | XGot (b recovered : bool) | XBlocked | XClosed (unlinked : bool).

Section Mutex.
  Variable robust : bool.

  (** Taking a free lock: plain 120-137 and 166-181, robust pthread_mutex_lock; robust
      103-110, 123-130, 141-148: the owner died, the new owner recovers the mutex. *)
  Definition try_take (c : nat) (f : mfile) : option (mfile * bool) :=
    match mf_lock f with
    | None => Some (MFile (mf_sized f) (Some c) false, false)
    | Some _ => if robust && mf_dead f then Some (MFile (mf_sized f) (Some c) false, true) else None
    end.

  (** named_mutex_unlock: plain 183-198 (whoever calls), robust 152-156
      (pthread_mutex_unlock fails unless the caller is the owner). *)
  Definition unlock (c : nat) (f : mfile) : mfile :=
    if robust
    then if eqb (mf_lock f) (Some c) && negb (mf_dead f) then MFile (mf_sized f) None false else f
    else MFile (mf_sized f) None (mf_dead f).

  (** The result [None] is an access to the mapping of a file that has no size yet: the
      process is killed by SIGBUS. *)
  Definition x_step (op : xop) (s : msys) : option (msys * xres) :=
    match op with
    | XOpen c =>   (* plain 213-224, robust 198-217; named_mutex_open *)
        match phase_of s c with
        | Absent =>
            match ms_link s with
            | Some id => Some (set_phase s c (Opened id false false), XDone)
            | None => Some (set_phase s c Missing, XDone)
            end
        | _ => Some (s, XRefused)
        end
    | XExcl c =>   (* plain 46-54, robust 44-51 *)
        match phase_of s c with
        | Missing =>
            match ms_link s with
            | Some _ => Some (set_phase s c NoHandle, XDone)
            | None =>
                let id := ms_next s in
                Some (MSys (S id) (aset id (MFile false None false) (ms_files s)) (Some id)
                       (aset c (Creating id false) (ms_cls s)), XDone)
            end
        | _ => Some (s, XRefused)
        end
    | XTrunc c =>  (* plain 57-61, robust 54-57 *)
        match phase_of s c with
        | Creating id false =>
            match aget id (ms_files s) with
            | Some f => Some (set_phase (set_file s id (MFile true (mf_lock f) (mf_dead f))) c (Creating id true), XDone)
            | None => Some (s, XRefused)
            end
        | _ => Some (s, XRefused)
        end
    | XInit c =>   (* plain 63-90 and 226-233, robust 59-79 and 213-217 *)
        match phase_of s c with
        | Creating id true =>
            match aget id (ms_files s) with
            | Some f => Some (set_phase (set_file s id (MFile (mf_sized f) None false)) c (Opened id true false), XDone)
            | None => Some (s, XRefused)
            end
        | _ => Some (s, XRefused)
        end
    | XLock c try =>  (* plain 272-305, robust 258-291 *)
        match phase_of s c with
        | Opened id ow false =>
            match aget id (ms_files s) with
            | Some f =>
                if negb (mf_sized f) then None
                else match try_take c f with
                     | Some (f', r) => Some (set_file s id f', XGot true r)
                     | None => if try then Some (s, XGot false false)
                               else Some (set_phase s c (Opened id ow true), XBlocked)
                     end
            | None => Some (s, XRefused)
            end
        | NoHandle => Some (s, XGot false false)
        | _ => Some (s, XRefused)
        end
    | XWake c =>   (* plain 139-157: the loop looks again *)
        match phase_of s c with
        | Opened id ow true =>
            match aget id (ms_files s) with
            | Some f =>
                match try_take c f with
                | Some (f', r) => Some (set_phase (set_file s id f') c (Opened id ow false), XGot true r)
                | None => Some (s, XBlocked)
                end
            | None => Some (s, XRefused)
            end
        | _ => Some (s, XRefused)
        end
    | XTimeout c =>  (* plain 158-163: not taken even if it has become free *)
        match phase_of s c with
        | Opened id ow true => Some (set_phase s c (Opened id ow false), XGot false false)
        | _ => Some (s, XRefused)
        end
    | XUnlock c =>   (* plain 307-315, robust 293-301 *)
        match phase_of s c with
        | Opened id ow false =>
            match aget id (ms_files s) with
            | Some f => if negb (mf_sized f) then None else Some (set_file s id (unlock c f), XDone)
            | None => Some (s, XRefused)
            end
        | _ => Some (s, XRefused)
        end
    | XDrop c =>     (* plain 267-270, robust 253-256 *)
        match phase_of s c with
        | Opened id _ false => Some (set_phase s c (Opened id false false), XDone)
        | _ => Some (s, XRefused)
        end
    | XClose c =>    (* plain 235-249, robust 220-234: unlock, unmap, unlink if owner *)
        match phase_of s c with
        | NoHandle => Some (set_phase s c Absent, XClosed false)
        | Opened id ow false =>
            match aget id (ms_files s) with
            | Some f =>
                if negb (mf_sized f) then None
                else
                  let s1 := set_phase (set_file s id (unlock c f)) c Absent in
                  if ow then Some (MSys (ms_next s1) (ms_files s1) None (ms_cls s1), XClosed true)
                  else Some (s1, XClosed false)
            | None => Some (s, XRefused)
            end
        | _ => Some (s, XRefused)
        end
    | XDie c =>      (* no destructor runs; the system marks robust mutexes it held *)
        match phase_of s c with
        | Absent => Some (s, XRefused)
        | _ =>
            let files :=
              if robust
              then map (fun p => if eqb (mf_lock (snd p)) (Some c)
                                 then (fst p, MFile (mf_sized (snd p)) (mf_lock (snd p)) true) else p) (ms_files s)
              else ms_files s in
            Some (MSys (ms_next s) files (ms_link s) (aset c Absent (ms_cls s)), XDone)
        end
    end.

  Fixpoint x_run (ops : list xop) (s : msys) : option (msys * list xres) :=
    match ops with
    | [] => Some (s, [])
    | op :: ops' =>
        match x_step op s with
        | None => None
        | Some (s1, r) => match x_run ops' s1 with Some (s2, rs) => Some (s2, r :: rs) | None => None end
        end
    end.
End Mutex.
