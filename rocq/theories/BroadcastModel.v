(** Model of RelocatableCircularQueue
    (ecal/core/src/registration/shm/relocatable_circular_queue.h) and of
    CMemoryFileBroadcast (ecal/core/src/registration/shm/ecal_memfile_broadcast.cpp).
    The 64-bit index arithmetic is modelled with natural numbers (the queue would
    need 2^63 slots to overflow it).  [None] is undefined behaviour: access outside
    the memory that backs the queue, or a modulus by zero. *)
From Verif Require Import Base.

Section Queue.
  Context {T : Type}.

  (** Header, lines 212-218, plus the slots that follow it in memory (Value, 224-234). *)
  Record rcq := RCQ { q_back : nat; q_front : nat; q_size : nat; q_max : nat; q_mem : list T }.

  Fixpoint lset (i : nat) (x : T) (l : list T) : list T :=
    match l, i with
    | [], _ => []
    | _ :: l', 0 => x :: l'
    | y :: l', S i' => y :: lset i' x l'
    end.

  (** x % m of the code; m = 0 is undefined. *)
  Definition wrap (x m : nat) : option nat := match m with 0 => None | S _ => Some (x mod m) end.

  (** *Value(index) = value. *)
  Definition q_write (i : nat) (x : T) (q : rcq) : option rcq :=
    if Nat.ltb i (length (q_mem q))
    then Some (RCQ (q_back q) (q_front q) (q_size q) (q_max q) (lset i x (q_mem q)))
    else None.

  (** Push, lines 115-128. *)
  Definition q_push (x : T) (q : rcq) : option rcq :=
    match (if Nat.eqb (q_size q) 0 then Some (q_back q) else wrap (q_back q + 1) (q_max q)) with
    | None => None
    | Some b =>
        match q_write b x (RCQ b (q_front q) (q_size q) (q_max q) (q_mem q)) with
        | None => None
        | Some q1 =>
            if negb (Nat.eqb (q_size q1) (q_max q1))
            then Some (RCQ (q_back q1) (q_front q1) (S (q_size q1)) (q_max q1) (q_mem q1))
            else match wrap (q_front q1 + 1) (q_max q1) with
                 | None => None
                 | Some f => Some (RCQ (q_back q1) f (q_size q1) (q_max q1) (q_mem q1))
                 end
        end
    end.

  (** Result of Pop: an exception or a new queue. *)
  Inductive popres := PopThrows | PopUB | PopOk (q : rcq).

  (** Pop, lines 130-140. *)
  Definition q_pop (q : rcq) : popres :=
    if Nat.eqb (q_size q) 0 then PopThrows
    else let n := q_size q - 1 in
         if negb (Nat.eqb n 0)
         then match wrap (q_front q + 1) (q_max q) with
              | None => PopUB
              | Some f => PopOk (RCQ (q_back q) f n (q_max q) (q_mem q))
              end
         else PopOk (RCQ (q_back q) (q_front q) n (q_max q) (q_mem q)).

  (** Front / Back, lines 142-168: unchecked reads; None is a read outside memory. *)
  Definition q_front_val (q : rcq) : option T := nth_error (q_mem q) (q_front q).
  Definition q_back_val (q : rcq) : option T := nth_error (q_mem q) (q_back q).

  (** Reset, lines 176-184 (the asserted max_size <> 0 is the caller's duty). *)
  Definition q_reset (m : nat) (q : rcq) : rcq := RCQ 0 0 0 m (q_mem q).

  (** begin/end and iterator::operator++, lines 43-51 and 86-97: the values seen by a
      range-for loop, newest first.  [fuel] bounds the number of steps; None is an
      access outside the memory or an endless loop. *)
  Fixpoint q_walk (fuel : nat) (i : nat) (q : rcq) : option (list T) :=
    match fuel with
    | 0 => None
    | S fuel' =>
        match nth_error (q_mem q) i with
        | None => None
        | Some x =>
            if Nat.eqb i (q_front q) then Some [x]
            else match wrap (i + q_max q - 1) (q_max q) with
                 | None => None
                 | Some j => match q_walk fuel' j q with
                             | None => None
                             | Some l => Some (x :: l)
                             end
                 end
        end
    end.
  Definition q_iter (q : rcq) : option (list T) :=
    if Nat.eqb (q_size q) 0 then Some [] else q_walk (S (q_max q)) (q_back q) q.

  (** One queue operation. *)
  Inductive qop := QPush (x : T) | QPop | QReset (m : nat).
  Inductive qres := QDone | QThrew.
  Definition q_step (o : qop) (q : rcq) : option (rcq * qres) :=
    match o with
    | QPush x => match q_push x q with Some q' => Some (q', QDone) | None => None end
    | QPop => match q_pop q with
              | PopOk q' => Some (q', QDone)
              | PopThrows => Some (q, QThrew)
              | PopUB => None
              end
    | QReset m => Some (q_reset m q, QDone)
    end.
  Fixpoint q_run (os : list qop) (q : rcq) : option (rcq * list qres) :=
    match os with
    | [] => Some (q, [])
    | o :: os' => match q_step o q with
                  | None => None
                  | Some (q', r) => match q_run os' q' with
                                    | None => None
                                    | Some (q'', rs) => Some (q'', r :: rs)
                                    end
                  end
    end.
End Queue.
Arguments rcq : clear implicits.
Arguments qop : clear implicits.

(** SMemfileBroadcastEvent (ecal_memfile_broadcast.h). *)
Record event := Event { ev_pid : Z; ev_ts : Z; ev_id : Z; ev_type : Z }.

(** The shared memory file: header time stamp (lines 38-44) and queue.  The slots
    are the [length (q_mem _)] event slots the file has room for.
    [sh_init] is "CurDataSize() != 0". *)
Record shared := Shared { sh_init : bool; sh_ts : Z; sh_q : rcq event }.

(** ResetMemfile, lines 148-157, called by a process configured with [maxq] slots. *)
Definition bc_reset (now : Z) (maxq : nat) (s : shared) : shared :=
  Shared true now (q_reset maxq (sh_q s)).

(** SendEvent, lines 216-247, with the write lock held for the whole call; a call
    that does not get the lock changes nothing and is not an operation here.
    [now] is the value of CreateTimestamp(); the time stamp set by a reset in the same
    call is overwritten in line 235, so [now] is used for it too. *)
Definition bc_send (now : Z) (maxq : nat) (pid id ty : Z) (s : shared) : option shared :=
  let s1 := if sh_init s then s else bc_reset now maxq s in
  match q_push (Event pid now id ty) (sh_q s1) with
  | None => None
  | Some q => Some (Shared true now q)
  end.

(** A receiving process: own process id, m_last_timestamp and the number of event
    slots in its local buffer (lines 72-74 and 91: computed from its own
    configuration). *)
Record receiver := Receiver { rc_pid : Z; rc_last : Z; rc_slots : nat }.

(** The loop of ReceiveEvents, lines 284-292, over the events newest first. *)
Fixpoint bc_scan (timeout threshold last pid : Z) (loopback : bool) (l : list event) : list event :=
  match l with
  | [] => []
  | e :: l' =>
      if (negb (Z.eqb timeout 0) && Z.leb (ev_ts e) threshold) || Z.leb (ev_ts e) last then []
      else if Z.eqb (ev_pid e) pid && negb loopback then bc_scan timeout threshold last pid loopback l'
      else e :: bc_scan timeout threshold last pid loopback l'
  end.

(** ReceiveEvents, lines 250-297: the file is copied into the local buffer (line 257)
    and scanned there.  [Some None] is the error return of lines 260-267 (the file is
    not initialised).  None is undefined behaviour. *)
Definition bc_receive (now timeout : Z) (loopback : bool) (s : shared) (r : receiver)
  : option (receiver * option (list event)) :=
  if sh_init s then
    let local := RCQ (q_back (sh_q s)) (q_front (sh_q s)) (q_size (sh_q s)) (q_max (sh_q s))
                     (firstn (rc_slots r) (q_mem (sh_q s))) in
    match q_iter local with
    | None => None
    | Some l =>
        Some (Receiver (rc_pid r) (sh_ts s) (rc_slots r),
              Some (bc_scan timeout (now - timeout * 1000) (rc_last r) (rc_pid r) loopback l))
    end
  else Some (r, None).

(** FlushLocalEventQueue, lines 159-191. *)
Definition bc_flush_local (s : shared) (r : receiver) : receiver :=
  if sh_init s then Receiver (rc_pid r) (sh_ts s) (rc_slots r) else r.

(** Operations seen by one receiver: sends and global flushes of any process (each
    configured with its own queue size), and its own polls and local flushes.  Polls
    of other receivers only take read access and change nothing. *)
Inductive bop :=
| BSend (now : Z) (maxq : nat) (pid id ty : Z)
| BPoll (now timeout : Z) (loopback : bool)
| BFlushGlobal (now : Z) (maxq : nat)     (* FlushGlobalEventQueue, lines 193-214 *)
| BFlushLocal.

Definition bc_step (o : bop) (st : shared * receiver) : option (shared * receiver * list (list event)) :=
  let '(s, r) := st in
  match o with
  | BSend now maxq pid id ty =>
      match bc_send now maxq pid id ty s with Some s' => Some (s', r, []) | None => None end
  | BPoll now timeout lb =>
      match bc_receive now timeout lb s r with
      | None => None
      | Some (r', None) => Some (s, r', [])
      | Some (r', Some l) => Some (s, r', [l])
      end
  | BFlushGlobal now maxq => Some (bc_reset now maxq s, r, [])
  | BFlushLocal => Some (s, bc_flush_local s r, [])
  end.

(** Run a history; the outputs are the event lists of the successful polls. *)
Fixpoint bc_run (os : list bop) (st : shared * receiver) : option (shared * receiver * list (list event)) :=
  match os with
  | [] => Some (st, [])
  | o :: os' =>
      match bc_step o st with
      | None => None
      | Some (st', out) =>
          match bc_run os' st' with
          | None => None
          | Some (st'', outs) => Some (st'', out ++ outs)
          end
      end
  end.

(** A memory file just created by the operating system with room for [slots] events
    (content irrelevant), and a receiver object after its constructor (line 62). *)
Definition bc_fresh (content : list event) : shared := Shared false 0 (RCQ 0 0 0 0 content).
Definition bc_receiver (pid : Z) (slots : nat) : receiver := Receiver pid 0 slots.
