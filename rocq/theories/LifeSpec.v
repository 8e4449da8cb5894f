(* What the life cycle promises, said in terms of the calls made and of the
   trace of what happened. *)
Require Import List Bool ZArith.
Require Import Verif.Base Verif.LifeModel.
Import ListNotations.

(* What was done to one piece, in order. *)
Fixpoint deeds (p : piece) (t : list happening) : list deed :=
  match t with
  | [] => []
  | Do d q :: r => if eqb p q then d :: deeds p r else deeds p r
  | _ :: r => deeds p r
  end.

(* The description gate is neither started nor stopped, the map of memory
   files is only stopped. *)
Inductive opening (p : piece) : list deed -> Prop :=
| open_plain : p = KDesc \/ p = KMap -> opening p [Create]
| open_started : forall n, p <> KDesc -> p <> KMap ->
    opening p (Create :: repeat Start (S n)).

Definition closing (p : piece) : list deed :=
  match p with KDesc => [Destroy] | _ => [Stop; Destroy] end.

(* A series of complete lives. *)
Inductive lives (p : piece) : list deed -> Prop :=
| lives_none : lives p []
| lives_more : forall l o, lives p l -> opening p o -> lives p (l ++ o ++ closing p).

(* The last thing that was done to a piece. *)
Definition latest (p : piece) (t : list happening) : option deed :=
  last (map Some (deeds p t)) None.

Definition up (p : piece) (t : list happening) : Prop :=
  latest p t = Some (match p with KDesc | KMap => Create | _ => Start end).

(* Whether the service manager runs, and whether the description gate is
   called back by the registration receiver. *)
Definition serving (t : list happening) : Prop :=
  exists l r, t = l ++ ManagerReset :: r /\ ~ In ManagerStop r.
Definition hooked (t : list happening) : Prop :=
  exists l r, t = l ++ Hook :: r /\ ~ In Unhook r.

(* Whom a piece calls while it is started or stopped:
   - readers, writers, servers and clients register and unregister themselves
     at the registration provider (ecal_reader.cpp 526-538, ecal_writer.cpp
     573-585, ecal_service_server_impl.cpp 379-391,
     ecal_service_client_impl.cpp 700-708);
   - the shared memory layers and the shared memory registration keep their
     files in the map (ecal_memfile_db.cpp 169-182);
   - readers are fed by the pool (ecal_reader_shm.cpp 46-59);
   - the monitoring sets its callback at the receiver
     (ecal_monitoring_impl.cpp 62 and 77). *)
Definition calls_on (p q : piece) : Prop :=
  match p, q with
  | (KSub | KPub | KServer | KClient), KProvider => True
  | (KSub | KPub | KProvider | KReceiver), KMap => True
  | KSub, KPool => True
  | KMon, KReceiver => True
  | _, _ => False
  end.

(* When something may happen, given what happened before. *)
Definition in_order (before : list happening) (h : happening) : Prop :=
  match h with
  | Do Start p =>
      (forall q, calls_on p q -> up q before)
      /\ (p = KServer \/ p = KClient -> serving before)
  | Do Stop p =>
      (forall q, calls_on p q -> up q before)
      /\ (p = KServer \/ p = KClient -> ~ serving before)
      /\ (p = KReceiver -> ~ hooked before)
  | Do Destroy p =>
      (* everybody has been stopped *)
      (forall q, latest q before <> Some Start)
      /\ (p = KDesc -> ~ hooked before)
      /\ (p = KServer \/ p = KClient -> ~ serving before)
  | Hook | Unhook => up KReceiver before /\ up KDesc before
  | _ => True
  end.

(* How often Initialize was called and not undone by Finalize. *)
Fixpoint outstanding (cs : list call) : Z :=
  match cs with
  | [] => 0
  | (CInit _ _ | CInitWith _ _) :: r => (1 + outstanding r)%Z
  | CFinalize :: r => (-1 + outstanding r)%Z
  | _ :: r => outstanding r
  end.

(* No Finalize without an Initialize before it. *)
Definition paired (cs : list call) : Prop :=
  forall l r, cs = l ++ r -> (0 <= outstanding l)%Z.

(* Some Initialize since eCAL was last down asked for the bit. *)
Definition requested (b : Z) (cs : list call) : Prop :=
  exists l r mask dump,
    cs = l ++ r /\ outstanding l = 0%Z
    /\ (forall r1 r2, r = r1 ++ r2 -> r1 <> [] -> (0 < outstanding (l ++ r1))%Z)
    /\ (In (CInit mask dump) r \/ In (CInitWith mask dump) r)
    /\ Z.land mask b <> 0%Z.

(* The single bits IsInitialized knows. *)
Definition known (b : Z) : Prop :=
  In b [init_publisher; init_subscriber; init_service; init_monitoring;
        init_logging; init_timesync].

(* There is a context: Initialize is outstanding, or no Finalize was called
   since the start of the process or since a Configuration was constructed. *)
Definition provided (cs : list call) : Prop :=
  (0 < outstanding cs)%Z
  \/ exists a b, cs = a ++ b /\ ~ In CFinalize b /\ (a = [] \/ In CConfig b).

(* A history that keeps to the rules the code leaves to the user. *)
Definition careful (cs : list call) : Prop :=
  forall l c r, cs = l ++ c :: r ->
    match c with
    | CInit mask dump =>
        dump = true -> Z.land mask init_timesync <> 0%Z \/ requested init_timesync l
    | CInitWith mask dump =>
        provided l
        /\ (dump = true -> Z.land mask init_timesync <> 0%Z \/ requested init_timesync l)
    | CPublisher => requested init_publisher l
    | CSubscriber => requested init_subscriber l
    | _ => True
    end.

(* A request to shut down that no call of Ok has answered. *)
Definition pending (cs : list call) : Prop :=
  exists l r, cs = l ++ CRequest :: r
    /\ forall r1 r2, r = r1 ++ COk :: r2 -> ~ provided (l ++ CRequest :: r1).
