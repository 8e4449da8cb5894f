(** Vocabulary for the objects of the API. *)
From Verif Require Import Base LifeModel ApiModel.

(** The operations, their results, and what there is afterwards. *)
Definition runs_to (ops : list aop) (zs : list Z) (s : apis) : Prop := api_run ops apis0 = Some (zs, s).
(** An object says it is created, and this is behind it. *)
Definition stands (s : apis) (h : nat) (k : kind) (i : nat) : Prop := aget h (s_api s) = Some (Api k true (Some i)).
Definition exists_as (s : apis) (i : nat) (k : kind) : Prop := exists m, aget i (s_impl s) = Some m /\ im_kind m = k.
Definition works (s : apis) (i : nat) : Prop := exists m, aget i (s_impl s) = Some m /\ im_runs m = true.
Definition nameless (s : apis) (i : nat) : Prop := exists m, aget i (s_impl s) = Some m /\ im_named m = false.
(** eCAL is initialized with the component of this kind. *)
Definition component (s : apis) (k : kind) : Prop := exists g, p_ctx (s_life s) = Some g /\ g_live g (piece_of k) = true.
Definition announces_it (s : apis) (k : kind) (i : nat) : Prop := exists l, announced k s = Some l /\ In i l.
(** Withdrawals handed over so far. *)
Definition gone (s : apis) : list nat := flat_map (fun n => match n with NUnreg i => [i] | NReg _ => [] end) (s_out s).

(** The operation gives up what this object stands for: Destroy, the destructor, assignment. *)
Definition ends (o : aop) (h : nat) : Prop := match o with ODestroy x | ODelete x => x = h | OMove x _ => x = h | _ => False end.
(** The operation dereferences a null pointer: one of the calls of LifeModel does, or a publisher or
    subscriber is created while eCAL is not initialized with that component. *)
Definition unready (s : apis) (o : aop) : Prop :=
  match o with
  | OLife c => perform c (s_life s) = None
  | OCreate h named => named = true /\ exists a, aget h (s_api s) = Some a /\ a_made a = false /\ (a_kind a = QPub \/ a_kind a = QSub) /\ ~ component s (a_kind a)
  | _ => False
  end.

(** ** Examples *)
Definition a_full : call := CInit init_default false.
Definition a_life : list aop :=
  [OLife a_full; ONew 0 QPub; OCreate 0 true; ONew 1 QSrv; OCreate 1 true; ONew 2 QPub; OMove 2 0; ONew 3 QCli; OCreate 3 true; ODelete 0].
Definition a_early : list aop := [ONew 0 QSrv; OCreate 0 true; OLife a_full; OCreate 0 true].
Definition a_over : list aop := [OLife a_full; ONew 0 QPub; OCreate 0 true; OLife CFinalize; OLife a_full; OCreate 0 true].
Definition a_stopped : list aop := [OLife a_full; OLife CFinalize; ONew 0 QSrv; OCreate 0 true].
Definition a_nameless : list aop := [OLife a_full; ONew 0 QCli; OCreate 0 false].
Definition after (ops : list aop) : apis := match api_run ops apis0 with Some (_, s) => s | None => apis0 end.
