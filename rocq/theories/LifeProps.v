(** Properties C69, C70 and C71: the life cycle of eCAL inside one process. *)
Require Import List Bool ZArith.
From Verif Require Import Base LifeModel LifeSpec LifeProofs.
Import ListNotations.

(** C69: whatever is called in whatever order, every piece goes through complete lives - created,
    started one or more times, stopped once, destroyed - with at most one unfinished life at the
    end. *)
Theorem c69_lives : forall cs zs s t p, performs cs at_main = Some (zs, s, t) ->
  lives p (deeds p t)
  \/ exists l o, deeds p t = l ++ o /\ lives p l /\ opening p o.
Proof. exact lives_lemma. Qed.
Print Assumptions c69_lives.

(** C69: whatever happens to a piece happens while those it calls are up: nothing is started or
    stopped after one it depends on, everything is stopped before anything is destroyed, the
    service manager is down when the service gates are stopped, and the description gate is
    unhooked before the receiver stops. *)
Theorem c69_order : forall cs zs s t before h after,
  performs cs at_main = Some (zs, s, t) -> t = before ++ h :: after -> in_order before h.
Proof. exact order_lemma. Qed.
Print Assumptions c69_order.

(** Publisher only; then everything; then down to nothing: the publisher gate is started twice. *)
Example c69_case : exists zs s t,
  performs [CInit init_publisher false; CInit init_all false; CFinalize; CFinalize] at_main
  = Some (zs, s, t)
  /\ zs = [0%Z; 0%Z; 0%Z; 0%Z]
  /\ deeds KPub t = [Create; Start; Start; Stop; Destroy]
  /\ deeds KMon t = [Create; Start; Stop; Destroy]
  /\ deeds KMap t = [Create; Stop; Destroy]
  /\ length t = 54.
Proof. do 3 eexists. split; [reflexivity|]. vm_compute. repeat split. Qed.

(** C70: if no Finalize is called without an Initialize before it, eCAL is initialized exactly while
    an Initialize is outstanding, and a component exactly if it was asked for since eCAL was last
    down.  Partial: see the refutations below. *)
Theorem c70_initialized_partial : forall cs zs s t,
  paired cs -> performs cs at_main = Some (zs, s, t) ->
  (is_initialized 0 s = true <-> (0 < outstanding cs)%Z)
  /\ forall b, known b -> (is_initialized b s = true <-> requested b cs).
Proof. exact initialized_lemma. Qed.
Print Assumptions c70_initialized_partial.

Example c70_initialized_case : exists zs s t,
  performs [CInit init_publisher false; COk; CInit init_monitoring false; CFinalize] at_main
  = Some (zs, s, t)
  /\ is_initialized 0 s = true /\ is_initialized init_monitoring s = true
  /\ is_initialized init_publisher s = true /\ is_initialized init_logging s = false.
Proof. do 3 eexists. split; [reflexivity|]. vm_compute. repeat split. Qed.

(** C70: under the same rule Initialize says 1 exactly if everything asked for was there already,
    and Finalize always says 0. *)
Theorem c70_returns_partial : forall cs c zs z s t, paired (cs ++ [c]) ->
  performs (cs ++ [c]) at_main = Some (zs ++ [z], s, t) ->
  match c with
  | CInit m _ | CInitWith m _ =>
      (z = 0%Z \/ z = 1%Z)
      /\ (z = 1%Z <-> (0 < outstanding cs)%Z
                      /\ forall b, known b -> Z.land m b <> 0%Z -> requested b cs)
  | CFinalize => z = 0%Z
  | _ => True
  end.
Proof. exact returns_lemma. Qed.
Print Assumptions c70_returns_partial.

Example c70_returns_case : exists s t,
  performs ([CInit init_default false] ++ [CInit init_publisher false]) at_main
  = Some ([0%Z] ++ [1%Z], s, t).
Proof. do 2 eexists. reflexivity. Qed.

(** C70: under the same rule, no null pointer is dereferenced exactly by the careful histories:
    a publisher is created only while the publisher component is there, and so on. *)
Theorem c70_careful_partial : forall cs, paired cs ->
  (performs cs at_main <> None <-> careful cs).
Proof. exact careful_lemma. Qed.
Print Assumptions c70_careful_partial.

Example c70_careful_case :
  performs [CInit init_default true; CPublisher; CSubscriber; CFinalize; CConfig;
            CInitWith init_publisher false; CPublisher; CFinalize] at_main <> None.
Proof. vm_compute. discriminate. Qed.

(** Creating a publisher before Initialize, after the last Finalize, or without the publisher
    component dereferences a null pointer; so does Initialize with a Configuration object that is
    older than the last Finalize, and printing the configuration without time synchronisation. *)
Theorem c70_null_refuted :
  performs [CPublisher] at_main = None
  /\ performs [CInit init_default false; CFinalize; CPublisher] at_main = None
  /\ performs [CInit init_subscriber false; CPublisher] at_main = None
  /\ performs [CConfig; CInitWith init_default false; CFinalize; CInitWith init_default false] at_main = None
  /\ performs [CInit init_publisher true] at_main = None.
Proof. repeat split. Qed.
Print Assumptions c70_null_refuted.

(** A Finalize before the first Initialize is answered "already finalized" and yet counted: after
    two further Initialize a single Finalize shuts eCAL down. *)
Theorem c70_early_finalize_refuted : exists zs s t,
  performs [CFinalize; CInit init_default false; CInit init_default false; CFinalize] at_main
  = Some (zs, s, t)
  /\ zs = [1%Z; 0%Z; 1%Z; 0%Z] /\ is_initialized 0 s = false.
Proof. do 3 eexists. split; [reflexivity|]. vm_compute. split; reflexivity. Qed.
Print Assumptions c70_early_finalize_refuted.

(** IsInitialized never confirms a combination of components, not even the one that was just
    initialized. *)
Theorem c70_combination_refuted : forall s,
  is_initialized init_default s = false /\ is_initialized init_all s = false.
Proof. exact combination_lemma. Qed.
Print Assumptions c70_combination_refuted.

Example c70_combination_case : exists zs s t,
  performs [CInit init_default false] at_main = Some (zs, s, t)
  /\ is_initialized 0 s = true /\ is_initialized init_default s = false.
Proof. do 3 eexists. split; [reflexivity|]. vm_compute. split; reflexivity. Qed.

(** C71: Ok says yes exactly if there is a context and no request to shut down is pending.
    Partial: there is a context before the first Initialize, and asking consumes the request. *)
Theorem c71_ok_partial : forall cs zs z s t, paired cs ->
  performs (cs ++ [COk]) at_main = Some (zs ++ [z], s, t) ->
  (z = 0%Z \/ z = 1%Z) /\ (z = 1%Z <-> provided cs /\ ~ pending cs).
Proof. exact ok_lemma. Qed.
Print Assumptions c71_ok_partial.

Example c71_ok_case : exists s t,
  performs ([CInit init_default false; COk; CRequest] ++ [COk]) at_main
  = Some ([0%Z; 1%Z; 0%Z] ++ [0%Z], s, t).
Proof. do 2 eexists. reflexivity. Qed.

(** The request is answered once: the second call of Ok says yes again, so that with two loops in
    one process only one of them ends. *)
Theorem c71_answered_once_refuted : exists s t,
  performs [CInit init_default false; CRequest; COk; COk] at_main
  = Some ([0%Z; 0%Z; 0%Z; 1%Z], s, t).
Proof. do 2 eexists. reflexivity. Qed.
Print Assumptions c71_answered_once_refuted.

(** Ok says yes although eCAL is not initialized. *)
Theorem c71_not_initialized_refuted :
  (exists s t, performs [COk] at_main = Some ([1%Z], s, t) /\ is_initialized 0 s = false)
  /\ exists s t, performs [CInit init_default false; CFinalize; COk; CConfig; COk] at_main
                 = Some ([0%Z; 0%Z; 0%Z; 0%Z; 1%Z], s, t) /\ is_initialized 0 s = false.
Proof. split; do 2 eexists; split; reflexivity. Qed.
Print Assumptions c71_not_initialized_refuted.
