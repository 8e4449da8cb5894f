(** Model of the services known to a service client and of its events.
    ecal/core/src/service/ecal_service_client_impl.cpp 156-190, 225-238, 395-438, 711-780;
    ecal_clientgate.cpp 100-145.

    Only services with the name of the client are considered (clientgate 141, 153).  A service is
    named by its key.  Simplified: the client manager is not stopped while the client lives; the
    attributes of a service are left out; the expiry of the register map is a step of its own (C01);
    m_connected_services_map is used without its lock in CheckForDisconnectedServices (a data race,
    here one of the two goes first). *)
From Verif Require Import Base Sample.

Inductive ctype := CConnected | CDisconnected | CTimeout.
Record csv := Csv {
  cv_known : list text;                 (* CClientGate::m_service_register_map *)
  cv_sessions : list (text * bool);     (* m_client_map; true: state FAILED *)
  cv_connected : list text;             (* m_connected_services_map *)
  cv_callbacks : list (ctype * option nat);   (* m_event_callback_map; None: an empty function *)
  cv_dead : bool }.
Definition csv0 : csv := Csv [] [] [] [] false.
Definition ctype_eq (a b : ctype) : bool :=
  match a, b with CConnected, CConnected | CDisconnected, CDisconnected | CTimeout, CTimeout => true | _, _ => false end.
Fixpoint find_cb (t : ctype) (l : list (ctype * option nat)) : option (option nat) :=
  match l with [] => None | (t', c) :: l' => if ctype_eq t t' then Some c else find_cb t l' end.

Inductive kop :=
| KAnnounce (k : text)        (* ApplyServiceRegistration and RegisterService 405-427 *)
| KExpire (k : text)          (* the announcements of k have stopped *)
| KRefresh                    (* CheckForNewServices 711-749 *)
| KCheck                      (* CheckForDisconnectedServices 751-780 *)
| KFail (k : text)            (* the session of k fails *)
| KLate (n : nat)             (* Call: n servers did not answer in time, 225-238 *)
| KAdd (t : ctype) (cb : nat) (* AddEventCallback *)
| KRem (t : ctype).           (* RemEventCallback *)
Inductive kev :=
| KEvent (t : ctype) (k : text) (cb : option nat)  (* None: no callback in the table *)
| KTerminate.

(** An event of type t about service k: the state, and whether the process survives. *)
Definition raise (t : ctype) (k : text) (s : csv) : list kev * bool :=
  match find_cb t (cv_callbacks s) with
  | Some (Some cb) => ([KEvent t k (Some cb)], true)
  | Some None => ([KTerminate], false)
  | None => ([KEvent t k None], true)
  end.
Definition kill (s : csv) : csv := Csv (cv_known s) (cv_sessions s) (cv_connected s) (cv_callbacks s) true.
Definition set_connected (l : list text) (s : csv) : csv := Csv (cv_known s) (cv_sessions s) l (cv_callbacks s) (cv_dead s).
(** The loop of CheckForDisconnectedServices over the sessions. *)
Fixpoint check (l : list (text * bool)) (s : csv) : csv * list kev :=
  match l with
  | [] => (s, [])
  | (k, failed) :: l' =>
      if (failed && existsb (eqb k) (cv_connected s))%bool then
        let (e, ok) := raise CDisconnected k s in
        if ok then
          let (s', e') := check l' (set_connected (filter (fun k' => negb (eqb k k')) (cv_connected s)) s) in (s', e ++ e')
        else (kill s, e)
      else check l' s
  end.
Fixpoint late (n : nat) (s : csv) : csv * list kev :=
  match n with
  | 0 => (s, [])
  | S n' =>
      let (e, ok) := raise CTimeout [] s in
      if ok then let (s', e') := late n' s in (s', e ++ e') else (kill s, e)
  end.

Definition k_step (op : kop) (s : csv) : option (csv * list kev) :=
  if cv_dead s then None else
  match op with
  | KAnnounce k =>
      let s1 := Csv (if existsb (eqb k) (cv_known s) then cv_known s else k :: cv_known s) (cv_sessions s) (cv_connected s) (cv_callbacks s) false in
      if existsb (eqb k) (cv_connected s) then Some (s1, [])
      else
        let (e, ok) := raise CConnected k s in
        Some (if ok then set_connected (k :: cv_connected s) s1 else kill s1, e)
  | KExpire k => Some (Csv (filter (fun k' => negb (eqb k k')) (cv_known s)) (cv_sessions s) (cv_connected s) (cv_callbacks s) false, [])
  | KRefresh =>
      Some (Csv (cv_known s) (fold_left (fun l k => if amem k l then l else aset k false l) (cv_known s) (cv_sessions s))
              (cv_connected s) (cv_callbacks s) false, [])
  | KCheck => Some (check (cv_sessions s) s)
  | KFail k => if amem k (cv_sessions s) then Some (Csv (cv_known s) (aset k true (cv_sessions s)) (cv_connected s) (cv_callbacks s) false, []) else None
  | KLate n => Some (late n s)
  | KAdd t cb => Some (Csv (cv_known s) (cv_sessions s) (cv_connected s) ((t, Some cb) :: cv_callbacks s) false, [])
  | KRem t => Some (Csv (cv_known s) (cv_sessions s) (cv_connected s) ((t, None) :: cv_callbacks s) false, [])
  end.
Fixpoint k_run (ops : list kop) (s : csv) : option (csv * list kev) :=
  match ops with
  | [] => Some (s, [])
  | op :: ops' =>
      match k_step op s with
      | Some (s', e) => match k_run ops' s' with Some (s'', e') => Some (s'', e ++ e') | None => None end
      | None => None
      end
  end.
(** CServiceClientImpl::IsConnected 395-402. *)
Definition cv_is_connected (s : csv) : bool := match cv_connected s with [] => false | _ => true end.
