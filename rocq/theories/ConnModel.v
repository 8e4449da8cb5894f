(** Model of the connection bookkeeping that CDataReader and CDataWriter share in form
    (ecal/core/src/readwrite/ecal_reader.cpp lines 284-313, 547-556, 738-796 and
    ecal_writer.cpp lines 433-516, 594-603, 731-788): the connected flag, the expiring
    map of counterparts, and the events.  [K] is SPublicationInfo / SSubscriptionInfo,
    [V] the data stored for it.  Event handlers are taken to be set throughout, so the
    log of events is what the user sees.

    Two threads work on it: the registration receiver calls Apply* and Remove*, one
    call at a time (the registration applier serialises them), and the registration
    provider calls CheckConnections.  Every access to the atomic flag, every event and
    every section under the map mutex is one step. *)
From Verif Require Import Base ExpMapModel.

Section Conn.
  Context {K V : Type} `{EqDec K}.
  Variable dflt : V.

  Inductive cev := EvConnected (k : K) (v : V) | EvUpdate (k : K) (v : V) | EvDisconnected.

  (** Where the applying thread is: before the test of the flag (line 744/737), before
      the connected event (line 750/743), before the update event (line 763/756),
      before the map entry is written (line 301/485). *)
  Inductive apc := AIdle | ATest (k : K) (v : V) | AConnect (k : K) (v : V) | AUpdate (k : K) (v : V) | AInsert (k : K) (v : V).
  (** Where the checking thread is: it holds the map mutex unless idle; before the test
      of the flag (line 778/771), before the disconnected event (line 784/777). *)
  Inductive kpc := KIdle | KTest | KEvent.

  Record conn := Conn {
    cn_flag : bool;            (* m_connected *)
    cn_map : emap K V;         (* m_pub_map / m_sub_map *)
    cn_events : list cev;      (* events raised, oldest first *)
    cn_apply : apc;
    cn_check : kpc }.

  Definition conn_new (timeout : Z) : conn := Conn false (em_new timeout) [] AIdle KIdle.

  Inductive micro :=
  | MStart (k : K) (v : V)     (* ApplyPublication / ApplySubscription is called *)
  | MStep (now : Z)            (* the applying thread goes on; [now] is the clock *)
  | MRemove (k : K)            (* RemovePublication / RemoveSubscription *)
  | MCheck (now : Z)           (* CheckConnections is called: lock, erase_expired, empty() *)
  | MCheckStep.                (* the checking thread goes on *)

  (** A step of a thread that has to wait does nothing; None is undefined behaviour. *)
  Definition micro_step (m : micro) (s : conn) : option conn :=
    match m with
    | MStart k v =>
        match cn_apply s with
        | AIdle => Some (Conn (cn_flag s) (cn_map s) (cn_events s) (ATest k v) (cn_check s))
        | _ => Some s
        end
    | MStep now =>
        match cn_apply s with
        | AIdle => Some s
        | ATest k v =>
            if cn_flag s then Some (Conn true (cn_map s) (cn_events s) (AUpdate k v) (cn_check s))
            else Some (Conn true (cn_map s) (cn_events s) (AConnect k v) (cn_check s))
        | AConnect k v => Some (Conn (cn_flag s) (cn_map s) (cn_events s ++ [EvConnected k v]) (AUpdate k v) (cn_check s))
        | AUpdate k v => Some (Conn (cn_flag s) (cn_map s) (cn_events s ++ [EvUpdate k v]) (AInsert k v) (cn_check s))
        | AInsert k v =>
            match cn_check s with
            | KIdle =>
                match em_index dflt now k (fun _ => v) (cn_map s) with
                | Some m' => Some (Conn (cn_flag s) m' (cn_events s) AIdle KIdle)
                | None => None
                end
            | _ => Some s
            end
        end
    | MRemove k =>
        match cn_apply s, cn_check s with
        | AIdle, KIdle =>
            match em_erase k (cn_map s) with
            | Some (m', _) => Some (Conn (cn_flag s) m' (cn_events s) AIdle KIdle)
            | None => None
            end
        | _, _ => Some s
        end
    | MCheck now =>
        match cn_check s with
        | KIdle =>
            let m' := fst (em_erase_expired now (cn_map s)) in
            Some (Conn (cn_flag s) m' (cn_events s) (cn_apply s)
                    (match em_contents m' with [] => KTest | _ => KIdle end))
        | _ => Some s
        end
    | MCheckStep =>
        match cn_check s with
        | KIdle => Some s
        | KTest =>
            if cn_flag s then Some (Conn false (cn_map s) (cn_events s) (cn_apply s) KEvent)
            else Some (Conn false (cn_map s) (cn_events s) (cn_apply s) KIdle)
        | KEvent => Some (Conn (cn_flag s) (cn_map s) (cn_events s ++ [EvDisconnected]) (cn_apply s) KIdle)
        end
    end.
  Fixpoint micro_run (ms : list micro) (s : conn) : option conn :=
    match ms with
    | [] => Some s
    | m :: ms' => match micro_step m s with Some s' => micro_run ms' s' | None => None end
    end.

  (** Whole calls, each finished before the next one starts. *)
  Inductive wop := WApply (now : Z) (k : K) (v : V) | WRemove (k : K) | WCheck (now : Z).
  Definition whole (o : wop) : list micro :=
    match o with
    | WApply now k v => [MStart k v; MStep now; MStep now; MStep now; MStep now]
    | WRemove k => [MRemove k]
    | WCheck now => [MCheck now; MCheckStep; MCheckStep]
    end.
  Definition serial (os : list wop) : list micro := flat_map whole os.
End Conn.
Arguments cev : clear implicits.
Arguments conn : clear implicits.
Arguments micro : clear implicits.
Arguments wop : clear implicits.
