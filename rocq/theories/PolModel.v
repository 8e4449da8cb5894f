(** The observers of memory files: for every memory file named in the registration of a publisher a
    process keeps a thread that waits for new content and hands it over.
    ecal/core/src/io/shm/ecal_memfile_pool.cpp, ecal/core/src/readwrite/shm/ecal_reader_shm.cpp 41-62.

    Times are those of the steady clock, in milliseconds.  A thread is modelled by the steps of its
    loop; what it reads is the counter in the header of the file (its content is in ShmModel).

    Simplified: Create always succeeds (its result is not looked at, 66, 400); Stop of the pool (344-366)
    is one step, and the observers it stops hand nothing more over; ObserveFile asks IsObserving
    and resets the time in one step. *)
From Coq Require Import Bool.
From Verif Require Import Base Sample.

(** Where the thread is: before the condition of the loop (162-163), before the wait (165-176), before
    the access (179-277), after the loop (280-293), or at its end. *)
Inductive phase := PhCheck | PhWait | PhHave | PhLeave | PhDone.
(** CMemFileObserver with its thread: m_is_observing, m_do_stop, m_time_of_last_life_signal, the timeout,
    has_unprocessed_data and last_sample_clock of the thread, and how often it was started. *)
Record obs := Obs { ob_alive : bool; ob_stop : bool; ob_last : Z; ob_to : Z; ob_ph : phase; ob_has : bool; ob_clock : Z; ob_run : nat }.
(** CMemFileThreadPool: m_created, m_observer_pool; the calls of ObserveFile that have passed lines
    370-371 and have not yet got the lock. *)
Record pool := Pool { pl_on : bool; pl_map : list (text * obs); pl_in : list (text * Z) }.
Definition pool0 : pool := Pool false [] [].

(** The constructor 40-46, Create 57-78 and Start 99-119. *)
Definition ob_new (now to : Z) : obs := Obs true false now to PhCheck false 0 1.
(** Stop 122-139 of an observer that has ended only waits for its thread; then Start 99-119, with the
    time of the last life signal as it was. *)
Definition ob_restart (to : Z) (o : obs) : obs := Obs true (ob_stop o) (ob_last o) to PhCheck false 0 (S (ob_run o)).
(** ResetTimeout 141-148. *)
Definition ob_reset (now : Z) (o : obs) : obs := Obs (ob_alive o) (ob_stop o) now (ob_to o) (ob_ph o) (ob_has o) (ob_clock o) (ob_run o).
Definition ob_at (ph : phase) (o : obs) : obs := Obs (ob_alive o) (ob_stop o) (ob_last o) (ob_to o) ph (ob_has o) (ob_clock o) (ob_run o).

Inductive poop :=
| PoStart                               (* CMemFileThreadPool::Start 333-342 *)
| PoStop                                (* CMemFileThreadPool::Stop 344-366 *)
| PoEnter (f : text) (to : Z)           (* ObserveFile is called, 370-371 *)
| PoBody (f : text) (to now : Z)        (* it gets the lock, 373-408 *)
| PoClean                               (* CleanupPool 430-451 *)
| PoCheck (f : text) (now : Z)          (* the condition of the loop, 162-163 *)
| PoWait (f : text) (sig : bool) (now : Z)   (* gWaitForEvent returns, 165-176 *)
| PoTry (f : text) (acc : bool) (c : Z) (* GetReadAccess and what follows, 179-277; [c] is the counter in the header *)
| PoEnd (f : text).                     (* 293 *)
(** ObserveFile returns true or false; a signal was received; a content is handed over. *)
Inductive poev := PRet (f : text) (now : Z) | PFail (f : text) | PSig (f : text) (now : Z) | PHand (f : text) (run : nat) (c : Z).

Fixpoint remove1 (x : text * Z) (l : list (text * Z)) : list (text * Z) :=
  match l with [] => [] | y :: l' => if eqb y x then l' else y :: remove1 x l' end.
Definition po_set (f : text) (o : obs) (s : pool) : pool := Pool (pl_on s) (aset f o (pl_map s)) (pl_in s).
(** 373-408. *)
Definition po_observe (f : text) (to now : Z) (s : pool) : pool :=
  match aget f (pl_map s) with
  | Some o => po_set f (if ob_alive o then ob_reset now o else ob_restart to o) s
  | None => po_set f (ob_new now to) s
  end.
Definition po_step (o : poop) (s : pool) : pool * list poev :=
  match o with
  | PoStart => (Pool true (pl_map s) (pl_in s), [])
  | PoStop => if pl_on s then (Pool false [] (pl_in s), []) else (s, [])
  | PoEnter f to =>
      match f with
      | [] => (s, [PFail f])
      | _ => if pl_on s then (Pool (pl_on s) (pl_map s) ((f, to) :: pl_in s), []) else (s, [PFail f])
      end
  | PoBody f to now =>
      if existsb (fun x => eqb x (f, to)) (pl_in s) then
        let s1 := po_observe f to now s in (Pool (pl_on s1) (pl_map s1) (remove1 (f, to) (pl_in s1)), [PRet f now])
      else (s, [])
  | PoClean => if pl_on s then (Pool true (filter (fun x => ob_alive (snd x)) (pl_map s)) (pl_in s), []) else (s, [])
  | PoCheck f now =>
      match aget f (pl_map s) with
      | Some o =>
          match ob_ph o with
          | PhCheck =>
              (po_set f (ob_at (if (now - ob_last o <? ob_to o)%Z && negb (ob_stop o) then if ob_has o then PhHave else PhWait else PhLeave) o) s, [])
          | _ => (s, [])
          end
      | None => (s, [])
      end
  | PoWait f sig now =>
      match aget f (pl_map s) with
      | Some o =>
          match ob_ph o with
          | PhWait =>
              if sig then (po_set f (Obs (ob_alive o) (ob_stop o) now (ob_to o) PhHave true (ob_clock o) (ob_run o)) s, [PSig f now])
              else (po_set f (ob_at PhCheck o) s, [])
          | _ => (s, [])
          end
      | None => (s, [])
      end
  | PoTry f acc c =>
      match aget f (pl_map s) with
      | Some o =>
          match ob_ph o with
          | PhHave =>
              if ob_stop o then (po_set f (ob_at PhLeave o) s, [])
              else if acc then
                if (c <=? ob_clock o)%Z
                then (po_set f (Obs (ob_alive o) (ob_stop o) (ob_last o) (ob_to o) PhCheck false (ob_clock o) (ob_run o)) s, [])
                else (po_set f (Obs (ob_alive o) (ob_stop o) (ob_last o) (ob_to o) PhCheck false c (ob_run o)) s, [PHand f (ob_run o) c])
              else (po_set f (ob_at PhCheck o) s, [])
          | _ => (s, [])
          end
      | None => (s, [])
      end
  | PoEnd f =>
      match aget f (pl_map s) with
      | Some o =>
          match ob_ph o with
          | PhLeave => (po_set f (Obs false (ob_stop o) (ob_last o) (ob_to o) PhDone (ob_has o) (ob_clock o) (ob_run o)) s, [])
          | _ => (s, [])
          end
      | None => (s, [])
      end
  end.
Fixpoint po_run (l : list poop) (s : pool) : pool * list poev :=
  match l with
  | [] => (s, [])
  | o :: l' => let (s1, e1) := po_step o s in let (s2, e2) := po_run l' s1 in (s2, e1 ++ e2)
  end.
