(** Vocabulary for the gates (C42, C43). *)
From Verif Require Import Base Sample RegModel WrModel RdModel PbModel SerModel GateModel.

(** ** Who is there *)
(** The gate has been started and not been stopped since. *)
Definition running (l : list gop) : Prop := exists a b, l = a ++ GStart :: b /\ ~ In GStop b.
(** Object [o] has been registered for topic [n] with the running gate and neither been
    withdrawn nor has the gate been stopped since. *)
Definition holds (n : text) (o : nat) (l : list gop) : Prop :=
  exists a b, l = a ++ GRegister n o :: b /\ running a /\ ~ In (GUnregister n o) b /\ ~ In GStop b.
(** No object is registered twice. *)
Definition registered (l : list gop) : list nat := flat_map (fun x => match x with GRegister _ o => [o] | _ => [] end) l.
Definition once (l : list gop) : Prop := NoDup (registered l).

(** ** Registrations *)
(** The sample announces that it can use layer [t]. *)
Definition able (s : sample) (t : ltype) : Prop :=
  exists y, In y (tp_layers (sm_topic s)) /\ ly_type y = t /\ (ly_enabled y = true \/ (ly_version y < 2)%Z).
Definition layers_are (s : sample) (l : sublayers) : Prop :=
  (sl_udp l = true <-> able s tl_udp) /\ (sl_shm l = true <-> able s tl_shm) /\ (sl_tcp l = true <-> able s tl_tcp).
(** The calls are [f w] for the objects [w] that satisfy [P], each of them once. *)
Definition exactly_for {A} (P : nat -> Prop) (f : nat -> list A) (calls : list A) : Prop :=
  exists ws, NoDup ws /\ (forall w, In w ws <-> P w) /\ calls = flat_map f ws.
(** The publisher knows of a subscriber on this host (a local publisher) or on other hosts. *)
Definition is_confirmed (host : text) (s : sample) : Prop :=
  (sm_host s = host /\ (0 < tp_conn_loc (sm_topic s))%Z) \/ (sm_host s <> host /\ (0 < tp_conn_ext (sm_topic s))%Z).

(** ** Deliveries *)
Definition final (l : list sop) : sys := fst (sy_run l sys0).
(** The calls to the gate in a history. *)
Definition gate_ops (l : list sop) : list gop := flat_map (fun o => match o with OGate x => [x] | _ => [] end) l.
(** The readers to which thread [th] has offered the message, in order. *)
Definition offered (th : nat) (l : list sop) : list nat :=
  flat_map (fun p => match fst p with OApply t => if Nat.eqb t th then map fst (snd p) else [] | _ => [] end)
           (combine l (snd (sy_run l sys0))).
(** Readers are constructed before they are registered. *)
Definition constructed (l : list sop) : Prop :=
  forall a b n r, l = a ++ OGate (GRegister n r) :: b -> exists c, In (OCreate r c) a.
(** What a reader is asked to do by one step of the process, and by a history. *)
Definition asked1 (r : nat) (s : sys) (x : sop) : list rop :=
  match aget r (sy_readers s) with
  | None => []
  | Some _ =>
      match x with
      | OGate GStop => if gt_on (sy_gate s) then repeat RStop (count_occ Nat.eq_dec (map snd (gt_map (sy_gate s))) r) else []
      | ORd r' o => if Nat.eqb r' r then match o with RArrive _ => [] | _ => [o] end else []
      | OApply th => match aget th (sy_del s) with
                     | Some (Delivery m (r' :: _) _) => if Nat.eqb r' r then [RArrive m] else []
                     | _ => []
                     end
      | _ => []
      end
  end.
Fixpoint asked (r : nat) (l : list sop) (s : sys) : list rop :=
  match l with [] => [] | x :: l' => asked1 r s x ++ asked r l' (fst (sy_step s x)) end.
