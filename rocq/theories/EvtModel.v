(** Events: ecal/core/src/ecal_event.cpp 125-518 (the Linux implementation).

    Named events live in a file in shared memory; everything below concerns one name, files
    are numbered because a name can be unlinked and created again.  A client is one event
    handle.  Each step is one critical section or one system call.  Not modelled: failing
    system calls other than the ones that fail because the name exists or does not exist,
    the initialisation of the pthread objects, and which of several waiters is woken up
    (any waiter may wake up at any time). *)
From Verif Require Import Base.

(** struct named_event 129-135. *)
Record efile := EFile { ef_sized : bool; ef_set : bool }.

(** [EMissing]: could not open the name and is about to create it; [ECreating id b]: has
    created the file ([b]: and set its size); [ENull]: the handle exists but has no event;
    [EOpened id waiting]: usable.  The flag in front is the ownership given by the user. *)
Inductive ephase :=
| EAbsent
| EMissing (owner : bool)
| ECreating (owner : bool) (id : nat) (sized : bool)
| ENull (owner : bool)
| EOpened (owner : bool) (id : nat) (waiting : bool).

Record esys := ESys { es_next : nat; es_files : list (nat * efile); es_link : option nat; es_cls : list (nat * ephase) }.
Definition esys_init : esys := ESys 0 [] None [].
Definition ephase_of (s : esys) (c : nat) : ephase := match aget c (es_cls s) with Some p => p | None => EAbsent end.
Definition set_ephase (s : esys) (c : nat) (p : ephase) : esys := ESys (es_next s) (es_files s) (es_link s) (aset c p (es_cls s)).
Definition set_efile (s : esys) (id : nat) (f : efile) : esys := ESys (es_next s) (aset id f (es_files s)) (es_link s) (es_cls s).

Inductive eop :=
| VOpen (c : nat) (owner : bool)  (* gOpenNamedEvent: open of an existing file *)
| VExcl (c : nat)                 (* named_event_create: shm_open O_CREAT|O_EXCL *)
| VTrunc (c : nat)                (* ftruncate *)
| VInit (c : nat)                 (* initialisation; gOpenNamedEvent returns *)
| VSet (c : nat)                  (* gSetEvent *)
| VWait (c : nat) (try : bool)    (* gWaitForEvent; try: timeout 0 *)
| VWake (c : nat)                 (* a blocked wait is woken up, signalled or not *)
| VTimeout (c : nat)              (* a blocked wait runs into its timeout *)
| VClose (c : nat).               (* gCloseEvent *)

(** [VRefused]: not possible in this phase; nothing happened.  [VGot b]: the wait returned
    [b].  [VClosed u]: [u] says whether the name was unlinked. *)
Inductive eres := VRefused | VDone | VGot (b : bool) | VBlocked | VClosed (unlinked : bool).

(** [None]: access to the mapping of a file without size, SIGBUS. *)
Definition e_step (op : eop) (s : esys) : option (esys * eres) :=
  match op with
  | VOpen c ow =>  (* 323-330, 395-411 *)
      match ephase_of s c with
      | EAbsent =>
          match es_link s with
          | Some id => Some (set_ephase s c (EOpened ow id false), VDone)
          | None => Some (set_ephase s c (EMissing ow), VDone)
          end
      | _ => Some (s, VRefused)
      end
  | VExcl c =>     (* 330-333, 137-143 *)
      match ephase_of s c with
      | EMissing ow =>
          match es_link s with
          | Some _ => Some (set_ephase s c (ENull ow), VDone)
          | None =>
              let id := es_next s in
              Some (ESys (S id) (aset id (EFile false false) (es_files s)) (Some id)
                     (aset c (ECreating ow id false) (es_cls s)), VDone)
          end
      | _ => Some (s, VRefused)
      end
  | VTrunc c =>    (* 146-150 *)
      match ephase_of s c with
      | ECreating ow id false =>
          match aget id (es_files s) with
          | Some f => Some (set_ephase (set_efile s id (EFile true (ef_set f))) c (ECreating ow id true), VDone)
          | None => Some (s, VRefused)
          end
      | _ => Some (s, VRefused)
      end
  | VInit c =>     (* 152-175 *)
      match ephase_of s c with
      | ECreating ow id true =>
          match aget id (es_files s) with
          | Some f => Some (set_ephase (set_efile s id (EFile (ef_sized f) false)) c (EOpened ow id false), VDone)
          | None => Some (s, VRefused)
          end
      | _ => Some (s, VRefused)
      end
  | VSet c =>      (* 346-350, 202-212; without an event nothing happens but success is reported, 472-484 *)
      match ephase_of s c with
      | EOpened _ id false =>
          match aget id (es_files s) with
          | Some f => if negb (ef_sized f) then None else Some (set_efile s id (EFile true true), VDone)
          | None => Some (s, VRefused)
          end
      | ENull _ => Some (s, VDone)
      | _ => Some (s, VRefused)
      end
  | VWait c try => (* 352-386, 214-228 and 261-277 *)
      match ephase_of s c with
      | EOpened ow id false =>
          match aget id (es_files s) with
          | Some f =>
              if negb (ef_sized f) then None
              else if ef_set f then Some (set_efile s id (EFile true false), VGot true)
              else if try then Some (s, VGot false)
              else Some (set_ephase s c (EOpened ow id true), VBlocked)
          | None => Some (s, VRefused)
          end
      | ENull _ => Some (s, VGot false)
      | _ => Some (s, VRefused)
      end
  | VWake c =>     (* 233-257 *)
      match ephase_of s c with
      | EOpened ow id true =>
          match aget id (es_files s) with
          | Some f =>
              if ef_set f
              then Some (set_ephase (set_efile s id (EFile (ef_sized f) false)) c (EOpened ow id false), VGot true)
              else Some (s, VBlocked)
          | None => Some (s, VRefused)
          end
      | _ => Some (s, VRefused)
      end
  | VTimeout c =>  (* 252-257: the state is not looked at again *)
      match ephase_of s c with
      | EOpened ow id true => Some (set_ephase s c (EOpened ow id false), VGot false)
      | _ => Some (s, VRefused)
      end
  | VClose c =>    (* 336-344, 457-470 *)
      match ephase_of s c with
      | ENull _ => Some (set_ephase s c EAbsent, VClosed false)
      | EOpened ow id false =>
          let s1 := set_ephase s c EAbsent in
          if ow then Some (ESys (es_next s1) (es_files s1) None (es_cls s1), VClosed true)
          else Some (s1, VClosed false)
      | _ => Some (s, VRefused)
      end
  end.

Fixpoint e_run (ops : list eop) (s : esys) : option (esys * list eres) :=
  match ops with
  | [] => Some (s, [])
  | op :: ops' =>
      match e_step op s with
      | None => None
      | Some (s1, r) => match e_run ops' s1 with Some (s2, rs) => Some (s2, r :: rs) | None => None end
      end
  end.

(** Unnamed events, class CEvent 282-316: a counter (unsigned int) below a std::mutex. *)
Inductive uop := USet | UWait (c : nat) (try : bool) | UWake (c : nat) | UTimeout (c : nat).
Inductive ures := UDone | UGot (b : bool) | UBlocked | URefused.
Record usys := USys { us_count : Z; us_waiting : list nat }.
Definition usys_init : usys := USys 0 [].
Definition uint_wrap (z : Z) : Z := (z mod 2 ^ 32)%Z.
(** A timed wait looks at the counter once more when its time is over (std::condition_variable::wait_for
    with a predicate), 303-311. *)
Definition u_step (op : uop) (s : usys) : usys * ures :=
  match op with
  | USet => (USys (uint_wrap (us_count s + 1)) (us_waiting s), UDone)
  | UWait c try =>
      if existsb (Nat.eqb c) (us_waiting s) then (s, URefused)
      else if (0 <? us_count s)%Z then (USys (us_count s - 1) (us_waiting s), UGot true)
      else if try then (s, UGot false)
      else (USys (us_count s) (c :: us_waiting s), UBlocked)
  | UWake c =>
      if negb (existsb (Nat.eqb c) (us_waiting s)) then (s, URefused)
      else if (0 <? us_count s)%Z
      then (USys (us_count s - 1) (filter (fun x => negb (Nat.eqb x c)) (us_waiting s)), UGot true)
      else (s, UBlocked)
  | UTimeout c =>
      if negb (existsb (Nat.eqb c) (us_waiting s)) then (s, URefused)
      else if (0 <? us_count s)%Z
      then (USys (us_count s - 1) (filter (fun x => negb (Nat.eqb x c)) (us_waiting s)), UGot true)
      else (USys (us_count s) (filter (fun x => negb (Nat.eqb x c)) (us_waiting s)), UGot false)
  end.
Fixpoint u_run (ops : list uop) (s : usys) : usys * list ures :=
  match ops with
  | [] => (s, [])
  | op :: ops' => let (s1, r) := u_step op s in let (s2, rs) := u_run ops' s1 in (s2, r :: rs)
  end.
