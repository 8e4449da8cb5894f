(** The objects of the API through the life of eCAL: publishers, subscribers, servers and clients
    are created, moved and destroyed while eCAL is initialized and finalized.
    ecal/core/src/pubsub/ecal_publisher.cpp 38-128, ecal_subscriber.cpp 37-122, ecal_pubgate.cpp
    39-111, ecal_subgate.cpp 43-102; ecal/core/src/service/ecal_service_server.cpp 40-106,
    ecal_service_client.cpp 36-128, ecal_servicegate.cpp 35-107, ecal_clientgate.cpp 38-98 and
    160-170, ecal_service_server_impl.cpp 46-79 and 127-172, ecal_service_client_impl.cpp 48-131;
    readwrite/ecal_writer.cpp 96-166, ecal_reader.cpp 65-144.

    Initialize and Finalize are those of LifeModel; what they do to the gates is read off the
    trace LifeModel gives.  Simplified: one thread; of a writer, reader, server or client only
    whether it runs and whether it has a name. *)
From Verif Require Import Base LifeModel.

Inductive kind := QPub | QSub | QSrv | QCli.
#[export] Instance EqDec_kind : EqDec kind.
Proof. intros x y; destruct x, y; (left; reflexivity) || (right; discriminate). Defined.
Definition piece_of (k : kind) : piece := match k with QPub => KPub | QSub => KSub | QSrv => KServer | QCli => KClient end.
Definition kind_of (p : piece) : option kind :=
  match p with KPub => Some QPub | KSub => Some QSub | KServer => Some QSrv | KClient => Some QCli | _ => None end.
(** The gates of publishers and subscribers hold shared pointers, the others raw ones
    (ecal_pubgate.h, ecal_subgate.h: shared_ptr; ecal_servicegate.h, ecal_clientgate.h: pointers). *)
Definition shared (k : kind) : bool := match k with QPub | QSub => true | _ => false end.

(** CDataWriter, CDataReader, CServiceServerImpl, CServiceClientImpl: m_created, and whether the
    name is empty. *)
Record impl := Impl { im_kind : kind; im_runs : bool; im_named : bool }.
(** CPublisher, CSubscriber, CServiceServer, CServiceClient: m_created and the pointer. *)
Record api := Api { a_kind : kind; a_made : bool; a_ptr : option nat }.
(** A registration or withdrawal handed to the registration provider. *)
Inductive notice := NReg (i : nat) | NUnreg (i : nat).
Record apis := Apis {
  s_life : process;
  s_flag : kind -> bool;              (* the static m_created of the gates *)
  s_gate : kind -> list nat;          (* the entries of the gates *)
  s_impl : list (nat * impl);         (* the implementations that exist *)
  s_api : list (nat * api);
  s_next : nat;
  s_manager : bool;                   (* the service manager is not stopped *)
  s_provider : bool;                  (* m_created of the registration provider *)
  s_out : list notice }.
Definition apis0 : apis := Apis at_main (fun _ => false) (fun _ => []) [] [] 0 true false [].

Definition upd {A} (f : kind -> A) (k : kind) (x : A) : kind -> A := fun k' => if eqb k' k then x else f k'.
Definition with_impl (l : list (nat * impl)) (s : apis) : apis :=
  Apis (s_life s) (s_flag s) (s_gate s) l (s_api s) (s_next s) (s_manager s) (s_provider s) (s_out s).
Definition with_gate (k : kind) (l : list nat) (s : apis) : apis :=
  Apis (s_life s) (s_flag s) (upd (s_gate s) k l) (s_impl s) (s_api s) (s_next s) (s_manager s) (s_provider s) (s_out s).
Definition with_flag (k : kind) (b : bool) (s : apis) : apis :=
  Apis (s_life s) (upd (s_flag s) k b) (s_gate s) (s_impl s) (s_api s) (s_next s) (s_manager s) (s_provider s) (s_out s).
Definition with_api (l : list (nat * api)) (s : apis) : apis :=
  Apis (s_life s) (s_flag s) (s_gate s) (s_impl s) l (s_next s) (s_manager s) (s_provider s) (s_out s).
Definition with_life (p : process) (s : apis) : apis :=
  Apis p (s_flag s) (s_gate s) (s_impl s) (s_api s) (s_next s) (s_manager s) (s_provider s) (s_out s).
Definition with_manager (b : bool) (s : apis) : apis :=
  Apis (s_life s) (s_flag s) (s_gate s) (s_impl s) (s_api s) (s_next s) b (s_provider s) (s_out s).
Definition with_provider (b : bool) (s : apis) : apis :=
  Apis (s_life s) (s_flag s) (s_gate s) (s_impl s) (s_api s) (s_next s) (s_manager s) b (s_out s).
(** RegisterSample, UnregisterSample: ecal_registration_provider.cpp 110-134. *)
Definition tell (n : notice) (s : apis) : apis :=
  if s_provider s then
    Apis (s_life s) (s_flag s) (s_gate s) (s_impl s) (s_api s) (s_next s) (s_manager s) (s_provider s) (s_out s ++ [n])
  else s.

(** Stop of an implementation; None: it no longer exists.  A client without a name does not
    withdraw itself (ecal_service_client_impl.cpp 703-709). *)
Definition im_stop (i : nat) (s : apis) : option apis :=
  match aget i (s_impl s) with
  | None => None
  | Some m =>
      if im_runs m then
        let s1 := with_impl (aset i (Impl (im_kind m) false (im_named m)) (s_impl s)) s in
        Some (match im_kind m with QCli => if im_named m then tell (NUnreg i) s1 else s1 | _ => tell (NUnreg i) s1 end)
      else Some s
  end.
Fixpoint im_stops (l : list nat) (s : apis) : option apis :=
  match l with [] => Some s | i :: l' => match im_stop i s with Some s1 => im_stops l' s1 | None => None end end.

(** The last shared pointer to an implementation is gone: it is destroyed, after its destructor
    has called Stop. *)
Definition held (i : nat) (s : apis) : bool :=
  existsb (fun x => match a_ptr (snd x) with Some j => Nat.eqb i j | None => false end) (s_api s) ||
  existsb (fun k => shared k && existsb (Nat.eqb i) (s_gate s k)) [QPub; QSub].
Definition release (i : nat) (s : apis) : option apis :=
  if held i s then Some s
  else match im_stop i s with Some s1 => Some (with_impl (adel i (s_impl s1)) s1) | None => None end.
Fixpoint releases (l : list nat) (s : apis) : option apis :=
  match l with [] => Some s | i :: l' => match release i s with Some s1 => releases l' s1 | None => None end end.

(** Stop of a gate: all entries are stopped; those of publishers and subscribers are cleared,
    ecal_pubgate.cpp 57-70, ecal_subgate.cpp 58-71, ecal_servicegate.cpp 49-61, ecal_clientgate.cpp 52-64. *)
Definition gate_stop (k : kind) (s : apis) : option apis :=
  if s_flag s k then
    match im_stops (s_gate s k) s with
    | None => None
    | Some s1 =>
        if shared k then match releases (s_gate s k) (with_gate k [] s1) with Some s2 => Some (with_flag k false s2) | None => None end
        else Some (with_flag k false s1)
    end
  else Some s.
(** The destructor of a gate stops it once more. *)
Definition gate_destroy (k : kind) (s : apis) : option apis :=
  match gate_stop k s with
  | None => None
  | Some s1 => if shared k then releases (s_gate s1 k) (with_gate k [] s1) else Some (with_gate k [] s1)
  end.
Definition happen (h : happening) (s : apis) : option apis :=
  match h with
  | Do d p =>
      match kind_of p with
      | Some k =>
          match d with
          | Create => Some (with_gate k [] s)
          | Start => Some (with_flag k true s)
          | Stop => gate_stop k s
          | Destroy => gate_destroy k s
          end
      | None =>
          match p, d with
          | KProvider, Start => Some (with_provider true s)
          | KProvider, (Stop | Destroy) => Some (with_provider false s)
          | _, _ => Some s
          end
      end
  | ManagerReset => Some (with_manager true s)
  | ManagerStop => Some (with_manager false s)
  | Hook | Unhook => Some s
  end.
Fixpoint happens (t : list happening) (s : apis) : option apis :=
  match t with [] => Some s | h :: t' => match happen h s with Some s1 => happens t' s1 | None => None end end.

(** g_pubgate() and its like, ecal_global_accessors.cpp 143-172. *)
Definition gate_there (k : kind) (s : apis) : bool :=
  match p_ctx (s_life s) with Some g => g_live g (piece_of k) | None => false end.

(** Create.  Publishers and subscribers use the gate unchecked (ecal_publisher.cpp 97,
    ecal_subscriber.cpp 87); a server may fail to start without anybody noticing
    (ecal_service_server_impl.cpp 78-79, ecal_service_server.cpp 78-85). *)
Definition api_create (h : nat) (named : bool) (s : apis) : option (bool * apis) :=
  match aget h (s_api s) with
  | None => Some (false, s)
  | Some a =>
      let k := a_kind a in
      if a_made a then Some (false, s)
      else if (shared k && negb named)%bool then Some (false, s)
      else
        let i := s_next s in
        let runs := match k with QSrv => s_manager s | _ => true end in
        let s1 := Apis (s_life s) (s_flag s) (s_gate s) (aset i (Impl k runs named) (s_impl s)) (s_api s) (S i) (s_manager s) (s_provider s) (s_out s) in
        let s2 := match k with QCli => if named then tell (NReg i) s1 else s1 | _ => s1 end in
        if gate_there k s2 then
          let s3 := if s_flag s2 k then with_gate k (s_gate s2 k ++ [i]) s2 else s2 in
          Some (true, with_api (aset h (Api k true (Some i)) (s_api s3)) s3)
        else if shared k then None
        else Some (true, with_api (aset h (Api k true (Some i)) (s_api s2)) s2)
  end.
(** Destroy. *)
Definition api_destroy (h : nat) (s : apis) : option (bool * apis) :=
  match aget h (s_api s) with
  | None => Some (false, s)
  | Some a =>
      if a_made a then
        match a_ptr a with
        | None => None
        | Some i =>
            let k := a_kind a in
            let s1 := if (gate_there k s && s_flag s k)%bool then with_gate k (filter (fun j => negb (Nat.eqb j i)) (s_gate s k)) s else s in
            match im_stop i s1 with
            | None => None
            | Some s2 =>
                match release i (with_api (aset h (Api k false None) (s_api s2)) s2) with
                | Some s3 => Some (true, s3)
                | None => None
                end
            end
        end
      else Some (false, s)
  end.
(** The pointer and the flag change hands, ecal_publisher.cpp 62-85, ecal_subscriber.cpp 54-76. *)
Definition api_hand (h h2 : nat) (s : apis) : apis :=
  match aget h (s_api s), aget h2 (s_api s) with
  | Some a, Some b => with_api (aset h2 (Api (a_kind b) false None) (aset h (Api (a_kind a) (a_made b) (a_ptr b)) (s_api s))) s
  | _, _ => s
  end.

Inductive aop :=
| OLife (c : call)              (* a call of LifeModel *)
| ONew (h : nat) (k : kind)     (* the default constructor *)
| OCreate (h : nat) (named : bool)
| ODestroy (h : nat)
| ODelete (h : nat)             (* the destructor *)
| OMove (h h2 : nat)            (* h = std::move(h2), of publishers or subscribers *)
| OMoveNew (h h2 : nat).        (* the move constructor *)
Definition api_step (o : aop) (s : apis) : option (Z * apis) :=
  match o with
  | OLife c =>
      match perform c (s_life s) with
      | None => None
      | Some (z, p, t) => match happens t s with Some s1 => Some (z, with_life p s1) | None => None end
      end
  | ONew h k => Some (0%Z, match aget h (s_api s) with None => with_api (aset h (Api k false None) (s_api s)) s | Some _ => s end)
  | OCreate h named => match api_create h named s with Some (b, s1) => Some ((if b then 1 else 0)%Z, s1) | None => None end
  | ODestroy h => match api_destroy h s with Some (b, s1) => Some ((if b then 1 else 0)%Z, s1) | None => None end
  | ODelete h => match api_destroy h s with Some (_, s1) => Some (0%Z, with_api (adel h (s_api s1)) s1) | None => None end
  | OMove h h2 =>
      match aget h (s_api s), aget h2 (s_api s) with
      | Some a, Some b =>
          if (shared (a_kind a) && eqb (a_kind a) (a_kind b))%bool then
            match api_destroy h s with Some (_, s1) => Some (0%Z, if Nat.eqb h h2 then s1 else api_hand h h2 s1) | None => None end
          else Some (0%Z, s)
      | _, _ => Some (0%Z, s)
      end
  | OMoveNew h h2 =>
      match aget h (s_api s), aget h2 (s_api s) with
      | None, Some b => if shared (a_kind b) then Some (0%Z, api_hand h h2 (with_api (aset h (Api (a_kind b) false None) (s_api s)) s)) else Some (0%Z, s)
      | _, _ => Some (0%Z, s)
      end
  end.
Fixpoint api_run (l : list aop) (s : apis) : option (list Z * apis) :=
  match l with
  | [] => Some ([], s)
  | o :: l' =>
      match api_step o s with
      | Some (z, s1) => match api_run l' s1 with Some (zs, s2) => Some (z :: zs, s2) | None => None end
      | None => None
      end
  end.

(** What the registration thread announces, GetRegistrations of the gates: ecal_servicegate.cpp
    97-107, ecal_clientgate.cpp 160-170, ecal_pubgate.cpp, ecal_subgate.cpp.  None: an entry no
    longer exists. *)
Definition announced (k : kind) (s : apis) : option (list nat) :=
  if (gate_there k s && s_flag s k)%bool then
    if forallb (fun i => amem i (s_impl s)) (s_gate s k) then Some (s_gate s k) else None
  else Some [].
