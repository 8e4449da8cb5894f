(* The life cycle of eCAL inside one process: Initialize, Finalize, Ok and the
   global instances they create, start, stop and destroy.

   Modelled: ecal/core/src/ecal.cpp 37-54, 101-213, ecal_globals.cpp 38-349,
   ecal_global_accessors.cpp 33-57 and 91-94, the Configuration constructors of
   config/ecal_config_initializer.cpp 236-268, the unchecked uses of a gate in
   pubsub/ecal_publisher.cpp 88-102 and ecal_subscriber.cpp 78-92, and of the
   time gate in ecal_process.cpp 192-206.

   Simplified: one thread calls the functions; the build contains every
   component (all ECAL_CORE_* options on); reading the configuration file and
   the unit name are left out; what a component does when it is created,
   started, stopped or destroyed is the subject of the other files: here it is
   one entry in a trace. *)
Require Import List Bool ZArith.
Require Import Verif.Base.
Import ListNotations.

(* The global instances, ecal_globals.h 90-121. *)
Inductive piece :=
| KProvider | KReceiver | KDesc | KMap | KPool | KSub | KPub
| KServer | KClient | KTime | KMon | KLog.

#[export] Instance EqDec_piece : EqDec piece.
Proof. intros x y; destruct x, y; (left; reflexivity) || (right; discriminate). Defined.

(* include/ecal/ecal_init.h 31-36 *)
Definition init_publisher : Z := 1.
Definition init_subscriber : Z := 2.
Definition init_service : Z := 4.
Definition init_monitoring : Z := 8.
Definition init_logging : Z := 16.
Definition init_timesync : Z := 32.
(* ecal_init.h 38-50 *)
Definition init_all : Z := 63.
Definition init_default : Z := 55.

(* Which bit of components_ asks for a piece; None: always created,
   ecal_globals.cpp 51-190. *)
Definition bit_of (p : piece) : option Z :=
  match p with
  | KProvider | KReceiver | KDesc | KMap | KPool => None
  | KSub => Some init_subscriber
  | KPub => Some init_publisher
  | KServer | KClient => Some init_service
  | KTime => Some init_timesync
  | KMon => Some init_monitoring
  | KLog => Some init_logging
  end.

(* (components_ & bit) != 0u *)
Definition asked (mask : Z) (p : piece) : bool :=
  match bit_of p with
  | None => true
  | Some b => negb (Z.land mask b =? 0)%Z
  end.

(* What happens to the pieces, in order. *)
Inductive deed := Create | Start | Stop | Destroy.
Inductive happening :=
| Do (d : deed) (p : piece)
| ManagerReset            (* ServiceManager::reset, ecal_globals.cpp 134 *)
| ManagerStop             (* ServiceManager::stop, 292 *)
| Hook                    (* SetCustomApplySampleCallback("descgate"), 208 *)
| Unhook.                 (* RemCustomApplySampleCallback("descgate"), 306 *)

(* The order of the creations, ecal_globals.cpp 55-190. *)
Definition create_order : list piece :=
  [KProvider; KReceiver; KDesc; KMap; KPool; KSub; KPub; KServer; KClient;
   KTime; KMon; KLog].

(* One creation: only if asked for and not there yet. *)
Definition create_one (ask live : piece -> bool) (p : piece) : list happening :=
  (match p with
   | KServer => if ask KServer then [ManagerReset] else []
   | _ => []
   end)
  ++ (if ask p && negb (live p) then [Do Create p] else []).

(* START ALL, ecal_globals.cpp 196-229; the registration pieces and the pool
   are started unconditionally, the others if asked for in this call. *)
Definition start_order : list piece :=
  [KLog; KProvider; KReceiver; KDesc; KPool; KSub; KPub; KServer; KClient;
   KTime; KMon].

Definition start_one (ask : piece -> bool) (p : piece) : list happening :=
  match p with
  | KDesc => [Hook]
  | _ => if ask p then [Do Start p] else []
  end.

Definition initialize_trace (ask live : piece -> bool) : list happening :=
  flat_map (create_one ask live) create_order
  ++ flat_map (start_one ask) start_order.

(* new_initialization, ecal_globals.cpp 49 and 232 *)
Definition something_new (ask live : piece -> bool) : bool :=
  existsb (fun p => ask p && negb (live p)) create_order.

(* Finalize, ecal_globals.cpp 279-345: all stops, then all destructions. *)
Definition stop_order : list piece :=
  [KMon; KTime; KClient; KServer; KPub; KSub; KDesc; KReceiver; KProvider;
   KPool; KMap; KLog].

Definition stop_one (live : piece -> bool) (p : piece) : list happening :=
  (match p with KClient => [ManagerStop] | _ => [] end)
  ++ (if live p then match p with KDesc => [Unhook] | _ => [Do Stop p] end
      else []).

Definition destroy_order : list piece :=
  [KMon; KTime; KServer; KClient; KPub; KSub; KReceiver; KProvider; KDesc;
   KPool; KMap; KLog].

Definition destroy_one (live : piece -> bool) (p : piece) : list happening :=
  if live p then [Do Destroy p] else [].

Definition finalize_trace (live : piece -> bool) : list happening :=
  flat_map (stop_one live) stop_order
  ++ flat_map (destroy_one live) destroy_order.

(* CGlobals, ecal_globals.h 86-121 *)
Record globals := mkGlobals { g_live : piece -> bool; g_inited : bool }.
Definition fresh : globals := mkGlobals (fun _ => false) false.

(* g_globals_ctx, g_globals_ctx_ref_cnt (ecal_global_accessors.cpp 33-34) and
   the event ecal_shutdown_process_<pid> (ecal.cpp 37-54). *)
Record process := mkProcess {
  p_ctx : option globals;
  p_count : Z;
  p_event : bool
}.

(* The global g_ecal_configuration is constructed before main and creates the
   context, ecal_global_accessors.cpp 37 and ecal_config_initializer.cpp
   265-268. *)
Definition at_main : process := mkProcess (Some fresh) 0 false.

(* InitGlobals, ecal_global_accessors.cpp 53-57 *)
Definition init_globals (s : process) : process :=
  match p_ctx s with
  | None => mkProcess (Some fresh) (p_count s) (p_event s)
  | Some _ => s
  end.

Inductive call :=
| CConfig                          (* construct a Configuration *)
| CInit (mask : Z) (dump : bool)   (* Initialize(argc, argv, ...) or (args, ...) *)
| CInitWith (mask : Z) (dump : bool) (* Initialize(Configuration&, ...) *)
| CFinalize
| CRequest                         (* somebody sets the event of this process (which requests do is C115, ShtModel.v) *)
| COk
| CPublisher                       (* CPublisher::Create with a topic name *)
| CSubscriber.                     (* CSubscriber::Create with a topic name *)

(* What a call returns, the state after it and what happened to the pieces.
   None: a null pointer is dereferenced. *)
Definition outcome := option (Z * process * list happening).

(* Initialize(Configuration&), ecal.cpp 130-152.  With dump_config the process
   information is printed, which uses the time gate unchecked,
   ecal_process.cpp 197-204. *)
Definition initialize (mask : Z) (dump : bool) (s : process) : outcome :=
  let count := (p_count s + 1)%Z in
  match p_ctx s with
  | None => None
  | Some g =>
      let ask := asked mask in
      let live := fun p => g_live g p || ask p in
      let ret := if something_new ask (g_live g) then 0%Z else 1%Z in
      if dump && negb (live KTime) then None
      else Some (ret, mkProcess (Some (mkGlobals live true)) count (p_event s),
                 initialize_trace ask (g_live g))
  end.

(* Finalize, ecal.cpp 191-200; the destructor of CGlobals calls its Finalize
   again, which finds it not initialized. *)
Definition finalize (s : process) : outcome :=
  match p_ctx s with
  | None => Some (1%Z, s, [])
  | Some g =>
      let count := (p_count s - 1)%Z in
      if (count >? 0)%Z then Some (0%Z, mkProcess (Some g) count (p_event s), [])
      else Some (if g_inited g then 0%Z else 1%Z,
                 mkProcess None count (p_event s),
                 if g_inited g then finalize_trace (g_live g) else [])
  end.

(* Ok, ecal.cpp 207-211: the event is only waited for if there is a context,
   and a successful wait consumes it. *)
Definition ok (s : process) : outcome :=
  match p_ctx s with
  | None => Some (0%Z, s, [])
  | Some _ => Some (if p_event s then 0%Z else 1%Z,
                    mkProcess (p_ctx s) (p_count s) false, [])
  end.

(* g_pubgate()->Register: g_pubgate() is null without a context or without a
   gate, ecal_global_accessors.cpp 146-150, 154-158. *)
Definition through (p : piece) (s : process) : outcome :=
  match p_ctx s with
  | Some g => if g_live g p then Some (1%Z, s, []) else None
  | None => None
  end.

Definition perform (c : call) (s : process) : outcome :=
  match c with
  | CConfig => Some (0%Z, init_globals s, [])
  | CInit mask dump => initialize mask dump (init_globals s)
  | CInitWith mask dump => initialize mask dump s
  | CFinalize => finalize s
  | CRequest => Some (0%Z, mkProcess (p_ctx s) (p_count s) true, [])
  | COk => ok s
  | CPublisher => through KPub s
  | CSubscriber => through KSub s
  end.

(* A whole history: the results, the last state and the trace. *)
Fixpoint performs (cs : list call) (s : process) : option (list Z * process * list happening) :=
  match cs with
  | [] => Some ([], s, [])
  | c :: r =>
      match perform c s with
      | None => None
      | Some (z, s1, t1) =>
          match performs r s1 with
          | None => None
          | Some (zs, s2, t2) => Some (z :: zs, s2, t1 ++ t2)
          end
      end
  end.

(* IsInitialized, ecal.cpp 161-166 and ecal_globals.cpp 237-273 *)
Definition is_initialized (component : Z) (s : process) : bool :=
  match p_ctx s with
  | None => false
  | Some g =>
      if (component =? 0)%Z then g_inited g
      else if (component =? init_publisher)%Z then g_live g KPub
      else if (component =? init_subscriber)%Z then g_live g KSub
      else if (component =? init_service)%Z then g_live g KServer
      else if (component =? init_monitoring)%Z then g_live g KMon
      else if (component =? init_logging)%Z then g_live g KLog
      else if (component =? init_timesync)%Z then g_live g KTime
      else false
  end.
