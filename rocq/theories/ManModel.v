(** The managers of the service clients and servers, the threads that serve them, and the
    acceptor of a server.

    Modelled: ecal/service/ecal_service/src/client_manager.cpp 39-117 and server_manager.cpp 33-111
    (which are alike), client_session.cpp 42-58 (the deleter), server_impl.cpp 120-135, 203-310
    (wait_for_next_client, stop), ecal/core/src/service/ecal_service_singleton_manager.cpp 68-186
    (ServiceManager), and blocking calls made from inside a service method
    (ecal_service_client_impl.cpp 441-560, CallBlocking with an infinite timeout).

    Simplified: every critical section is one step; sessions have no content here. *)
From Coq Require Import List Bool Arith.
From Verif Require Import Base.
Import ListNotations.

(** * The session table of one manager *)

(** Address of a session object.  Addresses are used again after the object was freed. *)
Notation addr := nat (only parsing).

Inductive mphase :=
| PAlive (runs : bool)   (* some shared_ptr refers to it; runs: not stopped *)
| PDying                 (* the last shared_ptr is gone, the deleter is entered *)
| PErased.               (* the deleter has called delete_callback *)

Record mobj := mkMobj { ob_id : nat; ob_phase : mphase }.

Record manager := mkManager {
  mn_stopped : bool;
  mn_table : list (addr * nat);                  (* sessions_: address, control block *)
  mn_heap : list (addr * mobj);
  mn_next : nat;                                 (* names for new sessions *)
  mn_copies : list (nat * list (addr * nat))     (* sessions_copy of each thread inside stop() *)
}.

Definition manager_init : manager := mkManager false [] [] 0 [].

Inductive man_move :=
| NCreate (a : addr)       (* create_client / create_server; new returns address a *)
| NRelease (a : addr)      (* the last shared_ptr to the session at a goes *)
| NErase (a : addr)        (* delete_callback *)
| NFree (a : addr)         (* delete, whose destructor stops the session *)
| NStopMark (t : nat)      (* stop() of thread t: flag and copy *)
| NStopOne (t : nat)       (* one round of its loop *)
| NEndsByItself (a : addr) (* the session fails *).

Definition man_step (s : manager) (m : man_move) : option manager :=
  match m with
  | NCreate a =>
      if mn_stopped s then Some s
      else match aget a (mn_heap s) with
           | Some _ => None
           | None =>
               (* map::emplace leaves an entry that is already there *)
               let table := match aget a (mn_table s) with
                            | Some _ => mn_table s
                            | None => aset a (mn_next s) (mn_table s)
                            end in
               Some (mkManager false table (aset a (mkMobj (mn_next s) (PAlive true)) (mn_heap s))
                               (S (mn_next s)) (mn_copies s))
           end
  | NRelease a =>
      match aget a (mn_heap s) with
      | Some (mkMobj i (PAlive _)) =>
          Some (mkManager (mn_stopped s) (mn_table s) (aset a (mkMobj i PDying) (mn_heap s))
                          (mn_next s) (mn_copies s))
      | _ => None
      end
  | NErase a =>
      match aget a (mn_heap s) with
      | Some (mkMobj i PDying) =>
          Some (mkManager (mn_stopped s) (adel a (mn_table s)) (aset a (mkMobj i PErased) (mn_heap s))
                          (mn_next s) (mn_copies s))
      | _ => None
      end
  | NFree a =>
      match aget a (mn_heap s) with
      | Some (mkMobj _ PErased) =>
          Some (mkManager (mn_stopped s) (mn_table s) (adel a (mn_heap s)) (mn_next s) (mn_copies s))
      | _ => None
      end
  | NStopMark t =>
      match aget t (mn_copies s) with
      | Some _ => None
      | None => Some (mkManager true (mn_table s) (mn_heap s) (mn_next s)
                                (aset t (mn_table s) (mn_copies s)))
      end
  | NStopOne t =>
      match aget t (mn_copies s) with
      | Some ((a, i) :: r) =>
          (* weak_ptr::lock succeeds for that very session only *)
          let heap := match aget a (mn_heap s) with
                      | Some (mkMobj j (PAlive _)) =>
                          if Nat.eqb i j then aset a (mkMobj j (PAlive false)) (mn_heap s) else mn_heap s
                      | _ => mn_heap s
                      end in
          Some (mkManager (mn_stopped s) (mn_table s) heap (mn_next s) (aset t r (mn_copies s)))
      | _ => None
      end
  | NEndsByItself a =>
      match aget a (mn_heap s) with
      | Some (mkMobj i (PAlive _)) =>
          Some (mkManager (mn_stopped s) (mn_table s) (aset a (mkMobj i (PAlive false)) (mn_heap s))
                          (mn_next s) (mn_copies s))
      | _ => None
      end
  end.

Fixpoint man_run (s : manager) (ms : list man_move) : option manager :=
  match ms with
  | [] => Some s
  | m :: r => match man_step s m with Some s' => man_run s' r | None => None end
  end.

(** client_count, server_count *)
Definition man_count (s : manager) : nat := length (mn_table s).

(** * ServiceManager: getting a manager, stopping, joining the io threads *)

(** Where a thread is.  An io thread in TFree is between handlers or inside a callback that does
    not use the manager. *)
Inductive tpos :=
| TFree
| TPassed      (* get_*_manager: passed the first check of stopped, wants the mutex *)
| TWants       (* stop(): wants the mutex *)
| TJoins       (* stop(): holds the mutex, joins the io threads *)
| TExited.     (* io thread: io_context::run has returned *)

Record service_manager := mkSm {
  sw_stopped : bool;               (* stopped *)
  sw_lock : option nat;            (* who holds singleton_mutex across a wait *)
  sw_exists : bool;                (* io_context, managers and io threads are there *)
  sw_closing : bool;               (* the managers were stopped: no work is left *)
  sw_sessions : nat;               (* running sessions *)
  sw_threads : list (nat * (bool * tpos))   (* io thread?, position *)
}.

Inductive sw_move :=
| GCheck (t : nat)     (* the first check of get_*_manager, 93, 130 *)
| GLocked (t : nat)    (* the rest of it, 97-122, 134-159 *)
| GOpen (t : nat)      (* create_client or create_server on the manager got before *)
| GLeave               (* a session ends *)
| SEnter (t : nat)     (* stop() is called *)
| SMark (t : nat)      (* 164-172 *)
| IExit (t : nat)      (* io thread t runs out of work *)
| SDone (t : nat)      (* 174-181 *)
| SReset.              (* reset(), 183-187 *)

Definition free_lock (s : service_manager) : bool :=
  match sw_lock s with None => true | Some _ => false end.

Definition io_exited (ts : list (nat * (bool * tpos))) : bool :=
  forallb (fun e => match e with
                    | (_, (true, TExited)) => true
                    | (_, (true, _)) => false
                    | (_, (false, _)) => true
                    end) ts.

(** New io threads for the next io_context. *)
Definition io_fresh (ts : list (nat * (bool * tpos))) : list (nat * (bool * tpos)) :=
  map (fun e => match e with (t, (true, _)) => (t, (true, TFree)) | _ => e end) ts.

Definition put (s : service_manager) (t : nat) (io : bool) (p : tpos) : list (nat * (bool * tpos)) :=
  aset t (io, p) (sw_threads s).

Definition sw_step (s : service_manager) (m : sw_move) : option service_manager :=
  match m with
  | GCheck t =>
      match aget t (sw_threads s) with
      | Some (io, TFree) =>
          if io && negb (sw_exists s) then None
          else if sw_stopped s then Some s
          else Some (mkSm (sw_stopped s) (sw_lock s) (sw_exists s) (sw_closing s) (sw_sessions s)
                          (put s t io TPassed))
      | _ => None
      end
  | GLocked t =>
      match aget t (sw_threads s) with
      | Some (io, TPassed) =>
          if free_lock s then
            if sw_stopped s then
              Some (mkSm (sw_stopped s) None (sw_exists s) (sw_closing s) (sw_sessions s)
                         (put s t io TFree))
            else
              Some (mkSm (sw_stopped s) None true (if sw_exists s then sw_closing s else false)
                         (sw_sessions s) (put s t io TFree))
          else None
      | _ => None
      end
  | GOpen t =>
      match aget t (sw_threads s) with
      | Some (_, TFree) =>
          if sw_exists s && negb (sw_closing s)
          then Some (mkSm (sw_stopped s) (sw_lock s) (sw_exists s) (sw_closing s) (S (sw_sessions s))
                          (sw_threads s))
          else Some s
      | _ => None
      end
  | GLeave =>
      match sw_sessions s with
      | S n => Some (mkSm (sw_stopped s) (sw_lock s) (sw_exists s) (sw_closing s) n (sw_threads s))
      | O => None
      end
  | SEnter t =>
      match aget t (sw_threads s) with
      | Some (io, TFree) =>
          if io && negb (sw_exists s) then None
          else Some (mkSm (sw_stopped s) (sw_lock s) (sw_exists s) (sw_closing s) (sw_sessions s)
                          (put s t io TWants))
      | _ => None
      end
  | SMark t =>
      match aget t (sw_threads s) with
      | Some (io, TWants) =>
          if free_lock s
          then Some (mkSm true (Some t) (sw_exists s) true 0 (put s t io TJoins))
          else None
      | _ => None
      end
  | IExit t =>
      match aget t (sw_threads s) with
      | Some (true, TFree) =>
          if sw_exists s && sw_closing s
          then Some (mkSm (sw_stopped s) (sw_lock s) (sw_exists s) (sw_closing s) (sw_sessions s)
                          (put s t true TExited))
          else None
      | _ => None
      end
  | SDone t =>
      match aget t (sw_threads s) with
      | Some (io, TJoins) =>
          if negb (sw_exists s) || io_exited (sw_threads s)
          then Some (mkSm (sw_stopped s) None false (sw_closing s) (sw_sessions s)
                          (io_fresh (put s t io TFree)))
          else None
      | _ => None
      end
  | SReset =>
      if free_lock s
      then Some (mkSm false None (sw_exists s) (sw_closing s) (sw_sessions s) (sw_threads s))
      else None
  end.

Fixpoint sw_run (s : service_manager) (ms : list sw_move) : option service_manager :=
  match ms with
  | [] => Some s
  | m :: r => match sw_step s m with Some s' => sw_run s' r | None => None end
  end.

(** Four io threads 0-3 and n other threads. *)
Definition sw_init (n : nat) : service_manager :=
  mkSm false None false false 0
       (map (fun t => (t, (t <? 4, TFree))) (seq 0 (4 + n))).

(** * The acceptor of a server, server_impl.cpp 203-310 *)

Record acceptor := mkAcceptor {
  ac_open : bool;                  (* acceptor_.is_open() *)
  ac_waiting : bool;               (* an async_accept is outstanding *)
  ac_ready : option nat;           (* a connection was accepted, its handler has not run yet *)
  ac_list : list nat;              (* session_list_ *)
  ac_running : list nat            (* sessions with an open socket *)
}.

Definition acceptor_init : acceptor := mkAcceptor true true None [] [].

Inductive ac_move :=
| AConnect (i : nat)     (* the system completes the accept *)
| AHandle                (* the completion handler, 262-296 *)
| AClose                 (* stop(), first half, 301-311 *)
| AStopAll               (* stop(), second half, 314-322 *)
| ABreak (i : nat).      (* the client leaves: the session removes itself, 217-229 *)

Definition rem (i : nat) (l : list nat) : list nat := filter (fun j => negb (Nat.eqb i j)) l.

Definition ac_step (s : acceptor) (m : ac_move) : option acceptor :=
  match m with
  | AConnect i =>
      if ac_open s && ac_waiting s && negb (existsb (Nat.eqb i) (ac_running s))
      then Some (mkAcceptor (ac_open s) false (Some i) (ac_list s) (ac_running s))
      else None
  | AHandle =>
      match ac_ready s with
      | Some i =>
          (* waits for the next client; on a closed acceptor that fails at once *)
          Some (mkAcceptor (ac_open s) (ac_open s) None (ac_list s ++ [i]) (ac_running s ++ [i]))
      | None => None
      end
  | AClose => Some (mkAcceptor false false (ac_ready s) (ac_list s) (ac_running s))
  | AStopAll =>
      Some (mkAcceptor (ac_open s) (ac_waiting s) (ac_ready s) (ac_list s)
                       (filter (fun i => negb (existsb (Nat.eqb i) (ac_list s))) (ac_running s)))
  | ABreak i =>
      if existsb (Nat.eqb i) (ac_list s)
      then Some (mkAcceptor (ac_open s) (ac_waiting s) (ac_ready s) (rem i (ac_list s)) (rem i (ac_running s)))
      else None
  end.

Fixpoint ac_run (s : acceptor) (ms : list ac_move) : option acceptor :=
  match ms with
  | [] => Some s
  | m :: r => match ac_step s m with Some s' => ac_run s' r | None => None end
  end.

(** * Blocking calls from inside a method *)

(** Handlers for the io threads: a request whose method makes a blocking call, and the answer to
    that call. *)
Inductive handler := HRequest (i : nat) | HAnswer (i : nat).

Record pool := mkPool {
  pl_queue : list handler;
  pl_blocked : list nat;      (* requests whose method waits for its answer, one io thread each *)
  pl_asked : list nat;        (* of these, the ones not yet answered by the other side *)
  pl_done : list nat;
  pl_next : nat               (* names for new requests *)
}.

Definition pool_init : pool := mkPool [] [] [] [] 0.

Definition io_threads : nat := 4.   (* ServiceManager::num_io_threads *)

Inductive pl_move :=
| LArrive          (* a request arrives *)
| LAnswer (i : nat)(* the other server answers the inner call of request i *)
| LTake.           (* a free io thread takes the first handler from the queue *)

Definition pl_step (s : pool) (m : pl_move) : option pool :=
  match m with
  | LArrive =>
      Some (mkPool (pl_queue s ++ [HRequest (pl_next s)]) (pl_blocked s) (pl_asked s) (pl_done s)
                   (S (pl_next s)))
  | LAnswer i =>
      if existsb (Nat.eqb i) (pl_asked s)
      then Some (mkPool (pl_queue s ++ [HAnswer i]) (pl_blocked s) (rem i (pl_asked s)) (pl_done s)
                        (pl_next s))
      else None
  | LTake =>
      if length (pl_blocked s) <? io_threads then
        match pl_queue s with
        | HRequest i :: q =>
            Some (mkPool q (pl_blocked s ++ [i]) (pl_asked s ++ [i]) (pl_done s) (pl_next s))
        | HAnswer i :: q =>
            Some (mkPool q (rem i (pl_blocked s)) (pl_asked s) (pl_done s ++ [i]) (pl_next s))
        | [] => None
        end
      else None
  end.

Fixpoint pl_run (s : pool) (ms : list pl_move) : option pool :=
  match ms with
  | [] => Some s
  | m :: r => match pl_step s m with Some s' => pl_run s' r | None => None end
  end.
