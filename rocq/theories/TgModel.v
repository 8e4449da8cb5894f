(** The gate to the time synchronisation plugins and the time functions.

    Modelled: ecal/core/src/time/ecal_timegate.cpp 50-470 (CTimeGate),
    ecal/core/src/time/ecal_time.cpp 35-135 (eCAL::Time),
    ecal/core/src/registration/ecal_process_registration.cpp 50-76 (its use).

    Simplified: one gate (m_created is shared by all of them); a module is the list of the symbols
    it provides and what its functions answer, which does not change; finding the file is an
    oracle from module names to modules. *)
From Coq Require Import List Bool ZArith.
From Verif Require Import Base.
Import ListNotations.

Inductive tsymbol := YInit | YFinal | YGet | YSet | YSync | YMaster | YSleep | YStatus.

Definition tsymbol_eqb (a b : tsymbol) : bool :=
  match a, b with
  | YInit, YInit | YFinal, YFinal | YGet, YGet | YSet, YSet
  | YSync, YSync | YMaster, YMaster | YSleep, YSleep | YStatus, YStatus => true
  | _, _ => false
  end.

Record tmodule := mkTmodule {
  tm_symbols : list tsymbol;     (* what dlsym finds *)
  tm_init : Z;                   (* result of etime_initialize *)
  tm_now : Z;                    (* etime_get_nanoseconds *)
  tm_sync : Z;                   (* etime_is_synchronized *)
  tm_error : Z                   (* error of etime_get_status *)
}.

Definition provides (m : tmodule) (y : tsymbol) : bool := existsb (tsymbol_eqb y) (tm_symbols m).

Definition all_symbols : list tsymbol := [YInit; YFinal; YGet; YSet; YSync; YMaster; YSleep; YStatus].

Definition complete (m : tmodule) : bool := forallb (provides m) all_symbols.

Inductive sync_mode := SNone | SReal | SReplay.

(** STimeDllInterface: no handle, or the module behind it (whose missing symbols are null). *)
Record gate_state := mkGate {
  tg_created : bool;
  tg_mode : sync_mode;
  tg_name : nat;                 (* m_time_sync_modname; 0: empty *)
  tg_rt : option tmodule;        (* m_time_sync_rt *)
  tg_rp : option tmodule;        (* m_time_sync_replay *)
  tg_init_rt : bool;
  tg_init_rp : bool;
  tg_loaded_rt : bool;
  tg_loaded_rp : bool
}.

Definition gate_init : gate_state := mkGate false SNone 0 None None false false false false.

(** What an operation does: an answer, calls of etime_initialize and etime_finalize (for the real
    time or the replay interface), or a call through a null pointer. *)
Inductive tg_event := VInit (replay : bool) | VFinal (replay : bool).
Inductive tg_result := RGood (z : Z) (evs : list tg_event) (s : gate_state) | RNull.

(** LoadModule, 344-467: the new interface and the result. *)
Definition load_module (files : nat -> option tmodule) (name : nat) (i : option tmodule)
  : option tmodule * bool :=
  if Nat.eqb name 0 then (i, false)
  else match i with
       | Some _ => (i, true)
       | None => match files name with
                 | None => (None, false)
                 | Some m => (Some m, complete m)
                 end
       end.

(** Start, 72-109 *)
Definition tg_start (files : nat -> option tmodule) (mode : sync_mode) (name : nat) (s : gate_state) : tg_result :=
  if tg_created s then RGood 0 [] s
  else
    let '(rt, lrt) := match mode with
                      | SReal => load_module files name (tg_rt s)
                      | _ => (tg_rt s, tg_loaded_rt s)
                      end in
    let '(rp, lrp) := match mode with
                      | SReplay => load_module files name (tg_rp s)
                      | _ => (tg_rp s, tg_loaded_rp s)
                      end in
    let call i := match i with
                  | Some m => if provides m YInit then Some (Z.eqb (tm_init m) 0) else None
                  | None => None
                  end in
    let '(irt, e1) := match call rt with Some b => (b, [VInit false]) | None => (false, []) end in
    let '(irp, e2) := match call rp with Some b => (b, [VInit true]) | None => (false, []) end in
    RGood 0 (e1 ++ e2)
      (mkGate true mode (match mode with SNone => 0 | _ => name end) rt rp irt irp lrt lrp).

(** The interface that is in use and whether it was initialised. *)
Definition in_use (s : gate_state) : option tmodule * bool :=
  match tg_mode s with
  | SNone => (None, false)
  | SReal => (tg_rt s, tg_init_rt s)
  | SReplay => (tg_rp s, tg_init_rp s)
  end.

(** Stop, 111-133 *)
Definition tg_stop (s : gate_state) : tg_result :=
  if negb (tg_created s) then RGood 0 [] s
  else
    let s' := mkGate false (tg_mode s) (tg_name s) (tg_rt s) (tg_rp s) false false (tg_loaded_rt s) (tg_loaded_rp s) in
    let replay := match tg_mode s with SReplay => true | _ => false end in
    match in_use s with
    | (Some m, true) => if provides m YFinal then RGood 0 [VFinal replay] s' else RNull
    | _ => RGood 0 [] s'
    end.

(** GetNanoSeconds 147-170, IsSynchronized 195-215 and their like: a call into the plugin if it was
    initialised, otherwise zero. *)
Definition tg_ask (y : tsymbol) (value : tmodule -> Z) (s : gate_state) : tg_result :=
  if negb (tg_created s) then RGood 0 [] s
  else match in_use s with
       | (Some m, true) => if provides m y then RGood (value m) [] s else RNull
       | _ => RGood 0 [] s
       end.

Definition tg_now (s : gate_state) : tg_result := tg_ask YGet tm_now s.
Definition tg_sync (s : gate_state) : tg_result :=
  tg_ask YSync (fun m => if Z.eqb (tm_sync m) 0 then 0%Z else 1%Z) s.

(** GetStatus, 274-335: the error *)
Definition tg_status (s : gate_state) : tg_result :=
  if negb (tg_created s) then RGood (-1) [] s
  else
    let ask i loaded :=
      if negb loaded then RGood (-1) [] s
      else match i with
           | Some m => if provides m YStatus then RGood (tm_error m) [] s else RNull
           | None => RNull
           end in
    match tg_mode s with
    | SNone => RGood 0 [] s
    | SReal => ask (tg_rt s) (tg_loaded_rt s)
    | SReplay => ask (tg_rp s) (tg_loaded_rp s)
    end.

Inductive tg_op := XStart (mode : sync_mode) (name : nat) | XStop | XNow | XSync | XStatus.

Definition tg_step (files : nat -> option tmodule) (s : gate_state) (o : tg_op) : tg_result :=
  match o with
  | XStart mode name => tg_start files mode name s
  | XStop => tg_stop s
  | XNow => tg_now s
  | XSync => tg_sync s
  | XStatus => tg_status s
  end.

(** The answers and calls of a sequence of operations; None: a null pointer was called. *)
Fixpoint tg_run (files : nat -> option tmodule) (s : gate_state) (os : list tg_op)
  : option (list Z * list tg_event * gate_state) :=
  match os with
  | [] => Some ([], [], s)
  | o :: r =>
      match tg_step files s o with
      | RNull => None
      | RGood z es s1 =>
          match tg_run files s1 r with
          | None => None
          | Some (zs, es2, s2) => Some (z :: zs, es ++ es2, s2)
          end
      end
  end.

(** eCAL::Time::GetNanoSeconds, ecal_time.cpp 63-74.  compiled: the macro ECAL_CORE_TIMEGATE, which
    no file of the build defines (the build option is called ECAL_CORE_TIMEPLUGIN).  None: a null
    pointer was called. *)
Definition time_now (compiled : bool) (system : Z) (s : gate_state) : option Z :=
  if compiled then
    match tg_status s with
    | RNull => None
    | RGood e _ _ =>
        if Z.leb 0 e then match tg_now s with RGood z _ _ => Some z | RNull => None end
        else Some system
    end
  else Some system.

(** eCAL::Time::SleepForNanoseconds, 106-115: the times slept *)
Definition time_sleep (compiled : bool) (ns : Z) (s : gate_state) : option (list Z) :=
  if compiled then
    match tg_status s with
    | RNull => None
    | RGood e _ _ =>
        if Z.leb 0 e
        then match in_use s with
             | (Some m, true) => if provides m YSleep then Some [ns; ns] else None
             | _ => Some [ns; ns]
             end
        else Some [ns]
    end
  else Some [ns].

(** tsync_state of the process registration: 0 none, 1 realtime, 2 replay;
    ecal_process_registration.cpp 50-76 *)
Definition registered_sync (s : gate_state) : option Z :=
  match tg_sync s with
  | RNull => None
  | RGood z _ _ =>
      if Z.eqb z 0 then Some 0%Z
      else Some (match tg_mode s with SNone => 0 | SReal => 1 | SReplay => 2 end)%Z
  end.
