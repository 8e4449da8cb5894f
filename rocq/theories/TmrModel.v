(** Model of timers as threads see them: CTimerImpl::Start, Stop and Thread (ecal/core/src/time/ecal_timer.cpp 47-128) and the C interface to
    them (ecal/core/src/cimpl/ecal_timer_cimpl.cpp 30-72), where one recursive mutex is held during every callback.  One step is one access to an
    atomic, the creation or joining of a thread, taking or giving back the mutex.  Sleeping takes any time (C73 is about how long);
    assertions are off; m_last_error is left out.  The destructor is a call of Stop (41, 148-152). *)
From Verif Require Import Base.

(** Threads: those of the user and those of the timers. *)
Inductive agent := User (n : nat) | Worker (n : nat).
#[export] Instance agent_eq : EqDec agent. Proof. intros x y. decide equality; apply eq_dec. Defined.

(** m_stop, m_running, m_thread (which thread can be joined). *)
Record tmr := Tmr { tm_stop : bool; tm_running : bool; tm_thread : option nat }.
Definition tmr0 : tmr := Tmr false false None.   (* line 37 *)

(** Where a call of Start or Stop on timer k is: behind which line. *)
Inductive tcall :=
| KStart0 (k : nat) (timeout : Z) (null : bool)   (* called *)
| KStart1 (k : nat) (timeout : Z) (null : bool)   (* behind 51 *)
| KStart2 (k : nat) (timeout : Z) (null : bool)   (* behind 52 *)
| KStart3 (k : nat) (timeout : Z)                 (* behind 53 *)
| KStop0 (k : nat)
| KStop1 (k : nat)                                (* behind 60 *)
| KStop2 (k : nat)                                (* behind 61 *)
| KStop3 (k : nat).                               (* behind 62 *)
(** Where the thread of a timer is. *)
Inductive wpc :=
| LBegin   (* line 71 *)
| LSleep   (* 72, 84-125 *)
| LCheck   (* 77 *)
| LEnter   (* 81: the lock of ecal_timer_cimpl.cpp 35 *)
| LIn      (* in the callback *)
| LEnd     (* 127 *)
| LGone.
(** The thread of a timer: the timer, whether the callback is null, where it is. *)
Record worker := Wk { wk_timer : nat; wk_null : bool; wk_pc : wpc }.
Record tstate := TState {
  ts_timers : list (nat * tmr);
  ts_workers : list (nat * worker);
  ts_calls : list (agent * tcall);     (* calls in progress *)
  ts_guard : option nat;               (* owner of g_timer_callback_mtx *)
  ts_dead : bool }.                    (* std::terminate, or undefined behaviour *)
Definition ts_init : tstate := TState [] [] [] None false.
Definition tm_get (k : nat) (s : tstate) : tmr := match aget k (ts_timers s) with Some t => t | None => tmr0 end.
Definition tm_set (k : nat) (t : tmr) (s : tstate) : tstate := TState (aset k t (ts_timers s)) (ts_workers s) (ts_calls s) (ts_guard s) (ts_dead s).
Definition wk_set (w : nat) (x : worker) (s : tstate) : tstate := TState (ts_timers s) (aset w x (ts_workers s)) (ts_calls s) (ts_guard s) (ts_dead s).
Definition call_set (a : agent) (c : tcall) (s : tstate) : tstate := TState (ts_timers s) (ts_workers s) (aset a c (ts_calls s)) (ts_guard s) (ts_dead s).
Definition call_end (a : agent) (s : tstate) : tstate := TState (ts_timers s) (ts_workers s) (adel a (ts_calls s)) (ts_guard s) (ts_dead s).
Definition guard_set (g : option nat) (s : tstate) : tstate := TState (ts_timers s) (ts_workers s) (ts_calls s) g (ts_dead s).
Definition die (s : tstate) : tstate := TState (ts_timers s) (ts_workers s) (ts_calls s) (ts_guard s) true.

Inductive tev := EStart (a : agent) (k : nat) (timeout : Z) (null : bool) | EStop (a : agent) (k : nat) | EGo (a : agent).
Inductive tsaid :=
| OAsk (a : agent) (k : nat)                           (* Start is called *)
| OStart (a : agent) (k : nat) (timeout : Z) (b : bool)  (* and returns b *)
| OStop (a : agent) (k : nat) (b : bool)               (* Stop returns b *)
| OCall (w k : nat)                                    (* the callback begins *)
| OBack (w k : nat).                                   (* and ends *)

Section Timer.
  (** Whether the timers are used through the C interface. *)
  Variable c_api : bool.
  (** Who may make calls: threads of the user, and callbacks; one at a time. *)
  Definition may_call (a : agent) (s : tstate) : bool :=
    negb (amem a (ts_calls s)) &&
    match a with
    | User _ => true
    | Worker w => match aget w (ts_workers s) with Some (Wk _ _ LIn) => true | _ => false end
    end.
  Definition go_call (a : agent) (c : tcall) (s : tstate) : tstate * list tsaid :=
    match c with
    | KStart0 k to nl =>
        if tm_running (tm_get k s) then (call_end a s, [OStart a k to false])       (* 50 *)
        else if (to <? 0)%Z then (call_end a s, [OStart a k to false])              (* 51 *)
        else (call_set a (KStart1 k to nl) s, [])
    | KStart1 k to nl =>
        let t := tm_get k s in (call_set a (KStart2 k to nl) (tm_set k (Tmr false (tm_running t) (tm_thread t)) s), [])
    | KStart2 k to nl =>
        let t := tm_get k s in
        match tm_thread t with
        | Some _ => (die s, [])                                                      (* assignment to a thread that can be joined *)
        | None => let w := length (ts_workers s) in
                  (call_set a (KStart3 k to) (tm_set k (Tmr (tm_stop t) (tm_running t) (Some w)) (wk_set w (Wk k nl LBegin) s)), [])
        end
    | KStart3 k to =>
        let t := tm_get k s in (call_end a (tm_set k (Tmr (tm_stop t) true (tm_thread t)) s), [OStart a k to true])
    | KStop0 k => if tm_running (tm_get k s) then (call_set a (KStop1 k) s, []) else (call_end a s, [OStop a k false])
    | KStop1 k => let t := tm_get k s in (call_set a (KStop2 k) (tm_set k (Tmr true (tm_running t) (tm_thread t)) s), [])
    | KStop2 k =>
        let t := tm_get k s in
        match tm_thread t with
        | None => (die s, [])                                                        (* join without thread: exception *)
        | Some w =>
            if eqb a (Worker w) then (die s, [])                                     (* join with oneself: exception *)
            else match aget w (ts_workers s) with
                 | Some (Wk _ _ LGone) => (call_set a (KStop3 k) (tm_set k (Tmr (tm_stop t) (tm_running t) None) s), [])
                 | _ => (s, [])                                                      (* waits *)
                 end
        end
    | KStop3 k => let t := tm_get k s in (call_end a (tm_set k (Tmr (tm_stop t) false (tm_thread t)) s), [OStop a k true])
    end.
  Definition go_worker (w : nat) (x : worker) (s : tstate) : tstate * list tsaid :=
    let k := wk_timer x in
    let at_ p := wk_set w (Wk k (wk_null x) p) in
    match wk_pc x with
    | LBegin => if wk_null x && negb c_api then (at_ LGone s, []) else (at_ LSleep s, [])   (* 71: a function bound to null is not null *)
    | LSleep => (at_ LCheck s, [])
    | LCheck => if tm_stop (tm_get k s) then (at_ LEnd s, []) else (at_ LEnter s, [])
    | LEnter =>
        if c_api then
          match ts_guard s with
          | Some _ => (s, [])                                                        (* waits *)
          | None => if wk_null x then (die s, []) else (guard_set (Some w) (at_ LIn s), [OCall w k])
          end
        else (at_ LIn s, [OCall w k])
    | LIn => ((if c_api then guard_set None (at_ LSleep s) else at_ LSleep s), [OBack w k])
    | LEnd => let t := tm_get k s in (at_ LGone (tm_set k (Tmr false (tm_running t) (tm_thread t)) s), [])
    | LGone => (s, [])
    end.
  Definition t_step (s : tstate) (e : tev) : tstate * list tsaid :=
    if ts_dead s then (s, [])
    else match e with
         | EStart a k to nl => if may_call a s then (call_set a (KStart0 k to nl) s, [OAsk a k]) else (s, [])
         | EStop a k => if may_call a s then (call_set a (KStop0 k) s, []) else (s, [])
         | EGo a =>
             match aget a (ts_calls s) with
             | Some c => go_call a c s
             | None => match a with
                       | User _ => (s, [])
                       | Worker w => match aget w (ts_workers s) with Some x => go_worker w x s | None => (s, []) end
                       end
             end
         end.
  Fixpoint t_run (s : tstate) (es : list tev) : tstate * list tsaid :=
    match es with
    | [] => (s, [])
    | e :: es' => let (s1, o) := t_step s e in let (s2, os) := t_run s1 es' in (s2, o ++ os)
    end.
End Timer.
