(** Model of the registration layer of one process: which samples are applied
    (ecal/core/src/registration/ecal_registration_sample_applier.cpp), the user
    registration callbacks (ecal_registration_sample_applier_user.cpp), the dispatch to
    the gates (ecal_registration_sample_applier_gates.cpp) and the registration
    provider with its send thread (ecal_registration_provider.cpp,
    ecal/core/src/util/ecal_thread.h). *)
From Verif Require Import Base Sample.

(** ** CSampleApplier *)

(** Members of CSampleApplier (constructor lines 30-37).  Callbacks are named by
    numbers; the customer map is kept as an association list (the order in which
    the customers are called, the key order of std::map, is not modelled). *)
Record applier := Applier {
  ap_network : bool; ap_loopback : bool; ap_group : text; ap_pid : Z; ap_customers : list (text * nat) }.

(** IsHostGroupMember, lines 62-94. *)
Definition ap_group_name (s : sample) : text :=
  match sm_cmd s with
  | bct_reg_publisher | bct_unreg_publisher | bct_reg_subscriber | bct_unreg_subscriber => tp_hgname (sm_topic s)
  | _ => []
  end.
Definition is_nil {A} (l : list A) : bool := match l with [] => true | _ => false end.
Definition ap_member (a : applier) (s : sample) : bool :=
  let g := if is_nil (ap_group_name s) then sm_host s else ap_group_name s in
  if is_nil g || is_nil (ap_group a) then false
  else if negb (eqb g (ap_group a)) then false else true.

(** IsSameProcess, lines 96-101 (the signed/unsigned comparison is exact for process
    ids below 2^31). *)
Definition ap_same_process (a : applier) (s : sample) : bool := Z.eqb (sm_pid s) (ap_pid a).

(** AcceptRegistrationSample, lines 103-117. *)
Definition ap_accept (a : applier) (s : sample) : bool :=
  if ap_member a s then negb (ap_same_process a s) || ap_loopback a else ap_network a.

(** ApplySample, lines 44-60: result and the calls made (customer, callback). *)
Definition ap_apply (a : applier) (s : sample) : bool * list (text * nat) :=
  if negb (ap_accept a s) then (false, []) else (true, ap_customers a).

(** Operations: SetCustomApplySampleCallback 119-123, RemCustomApplySampleCallback
    125-133, EnableLoopback 39-42, ApplySample. *)
Inductive apop := APSet (c : text) (f : nat) | APRem (c : text) | APLoop (b : bool) | APApply (s : sample).
Definition ap_step (a : applier) (o : apop) : applier :=
  match o with
  | APSet c f => Applier (ap_network a) (ap_loopback a) (ap_group a) (ap_pid a) (aset c f (ap_customers a))
  | APRem c => Applier (ap_network a) (ap_loopback a) (ap_group a) (ap_pid a) (adel c (ap_customers a))
  | APLoop b => Applier (ap_network a) b (ap_group a) (ap_pid a) (ap_customers a)
  | APApply _ => a
  end.
Definition ap_run (a : applier) (os : list apop) : applier := fold_left ap_step os a.
Definition ap_new (network loopback : bool) (group : text) (pid : Z) : applier := Applier network loopback group pid [].

(** ** CSampleApplierUser *)

(** eCAL_Registration_Event (ecal_callback / cimpl): the five known events and any other value. *)
Inductive regevent := RePub | ReSub | ReService | ReClient | ReProcess | ReOther (z : Z).

(** m_callback_pub, _sub, _service, _client, _process. *)
Record uapplier := UApplier { ua_pub : option nat; ua_sub : option nat; ua_srv : option nat; ua_cli : option nat; ua_prc : option nat }.
Definition ua_new := UApplier None None None None None.

Definition ua_put (e : regevent) (f : option nat) (u : uapplier) : uapplier * bool :=
  match e with
  | RePub => (UApplier f (ua_sub u) (ua_srv u) (ua_cli u) (ua_prc u), true)
  | ReSub => (UApplier (ua_pub u) f (ua_srv u) (ua_cli u) (ua_prc u), true)
  | ReService => (UApplier (ua_pub u) (ua_sub u) f (ua_cli u) (ua_prc u), true)
  | ReClient => (UApplier (ua_pub u) (ua_sub u) (ua_srv u) f (ua_prc u), true)
  | ReProcess => (UApplier (ua_pub u) (ua_sub u) (ua_srv u) (ua_cli u) f, true)
  | ReOther _ => (u, false)
  end.
(** AddRegistrationCallback 28-50, RemRegistrationCallback 52-74 (nullptr). *)
Inductive uaop := UAAdd (e : regevent) (f : nat) | UARem (e : regevent).
Definition ua_step (u : uapplier) (o : uaop) : uapplier :=
  match o with UAAdd e f => fst (ua_put e (Some f) u) | UARem e => fst (ua_put e None u) end.
Definition ua_result (u : uapplier) (o : uaop) : bool :=
  match o with UAAdd e f => snd (ua_put e (Some f) u) | UARem e => snd (ua_put e None u) end.
(** ApplySample, lines 76-119: the callback invoked, if any.  Serialising the sample
    is assumed to succeed (it only allocates). *)
Definition ua_apply (u : uapplier) (s : sample) : option nat :=
  match sm_cmd s with
  | bct_none | bct_set_sample => None
  | bct_reg_process | bct_unreg_process => ua_prc u
  | bct_reg_service | bct_unreg_service => ua_srv u
  | bct_reg_client | bct_unreg_client => ua_cli u
  | bct_reg_subscriber | bct_unreg_subscriber => ua_sub u
  | bct_reg_publisher | bct_unreg_publisher => ua_pub u
  | bct_other _ => None
  end.

(** ** CSampleApplierGates::ApplySample, lines 31-72 *)
Inductive gatecall := GSubReg | GSubUnreg | GPubReg | GPubUnreg | GServiceReg.
Definition gates_apply (s : sample) : option gatecall :=
  match sm_cmd s with
  | bct_reg_service => Some GServiceReg
  | bct_reg_subscriber => Some GSubReg
  | bct_unreg_subscriber => Some GSubUnreg
  | bct_reg_publisher => Some GPubReg
  | bct_unreg_publisher => Some GPubUnreg
  | _ => None
  end.

(** ** CRegistrationProvider and its CCallbackThread *)

(** Where the send thread is: waiting on the condition variable, about to collect and
    send the cyclic registrations, about to send the applied samples, or finished. *)
Inductive thstate := ThWait | ThCollect | ThApplied | ThExited.
(** Where a call of Stop is. *)
Inductive stopstate := StNone | StPushed | StTriggered | StFlagged | StDone.
(** What was handed to the registration sender. *)
Inductive batch {S : Type} := Cyclic (l : list S) | Applied (l : list S).
Arguments batch : clear implicits.

Section Provider.
  Context {S : Type}.
  Record prov := Prov {
    pv_created : bool;            (* m_created *)
    pv_applied : list S;          (* m_applied_sample_list *)
    pv_trigger : bool;            (* CCallbackThread::triggerThread_ *)
    pv_stop : bool;               (* CCallbackThread::stopThread_ *)
    pv_thread : thstate;
    pv_stopping : stopstate;
    pv_sent : list (batch S) }.   (* everything passed to SendSampleList so far *)

  (** After Start, lines 62-89. *)
  Definition pv_started : prov := Prov true [] false false ThWait StNone [].

  (** Atomic steps.  A step is what runs under one mutex; a step that is not possible
      in a state leaves it unchanged. *)
  Inductive pvop :=
  | PvPush (s : S)            (* AddSingleSample 134-138, from RegisterSample 111-122 or UnregisterSample 125-133 *)
  | PvTrigger                 (* CCallbackThread::trigger, from RegisterSample *)
  | PvStopPush (s : S)        (* Stop 91-108: AddSingleSample of the process withdrawal *)
  | PvStopTrigger             (* Stop: trigger() *)
  | PvStopFlag                (* Stop: stop(), the flag is set *)
  | PvStopJoin                (* Stop: stop() returns after join, sender destroyed *)
  | PvWake                    (* wait_for returns: notified or timed out *)
  | PvCollect (l : list S)    (* RegisterSendThread 140-171: cyclic list sent *)
  | PvSendApplied.            (* RegisterSendThread 173-178 *)

  Definition pv_step (p : prov) (o : pvop) : prov :=
    match o with
    | PvPush s =>
        if pv_created p
        then Prov true (pv_applied p ++ [s]) (pv_trigger p) (pv_stop p) (pv_thread p) (pv_stopping p) (pv_sent p)
        else p
    | PvTrigger => Prov (pv_created p) (pv_applied p) true (pv_stop p) (pv_thread p) (pv_stopping p) (pv_sent p)
    | PvStopPush s =>
        match pv_stopping p with
        | StNone => if pv_created p
                    then Prov true (pv_applied p ++ [s]) (pv_trigger p) (pv_stop p) (pv_thread p) StPushed (pv_sent p)
                    else p
        | _ => p
        end
    | PvStopTrigger =>
        match pv_stopping p with
        | StPushed => Prov (pv_created p) (pv_applied p) true (pv_stop p) (pv_thread p) StTriggered (pv_sent p)
        | _ => p
        end
    | PvStopFlag =>
        match pv_stopping p with
        | StTriggered => Prov (pv_created p) (pv_applied p) (pv_trigger p) true (pv_thread p) StFlagged (pv_sent p)
        | _ => p
        end
    | PvStopJoin =>
        match pv_stopping p, pv_thread p with
        | StFlagged, ThExited => Prov false (pv_applied p) (pv_trigger p) (pv_stop p) ThExited StDone (pv_sent p)
        | _, _ => p
        end
    | PvWake =>
        match pv_thread p with
        | ThWait =>
            if pv_stop p
            then Prov (pv_created p) (pv_applied p) (pv_trigger p) (pv_stop p) ThExited (pv_stopping p) (pv_sent p)
            else Prov (pv_created p) (pv_applied p) false (pv_stop p) ThCollect (pv_stopping p) (pv_sent p)
        | _ => p
        end
    | PvCollect l =>
        match pv_thread p with
        | ThCollect => Prov (pv_created p) (pv_applied p) (pv_trigger p) (pv_stop p) ThApplied (pv_stopping p)
                            (pv_sent p ++ [Cyclic l])
        | _ => p
        end
    | PvSendApplied =>
        match pv_thread p with
        | ThApplied => Prov (pv_created p) [] (pv_trigger p) (pv_stop p) ThWait (pv_stopping p)
                            (pv_sent p ++ [Applied (pv_applied p)])
        | _ => p
        end
    end.
  Definition pv_run (p : prov) (os : list pvop) : prov := fold_left pv_step os p.
End Provider.
Arguments prov : clear implicits.
Arguments pvop : clear implicits.
