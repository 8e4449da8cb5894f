(** C103: publishers, subscribers, servers and clients through the life of eCAL. *)
From Verif Require Import Base LifeModel ApiModel ApiSpec ApiProofs.

(** After any operations on any objects, one further operation dereferences a null pointer exactly
    if eCAL's own call does, or a publisher or subscriber with a topic name is created without its
    component. *)
Theorem c103_defined ops zs s o : runs_to ops zs s -> (api_step o s = None <-> unready s o).
Proof. exact (defined_lemma ops zs s o). Qed.
Print Assumptions c103_defined.
Example c103_defined_ex : api_step (OCreate 0 true) (after [ONew 0 QPub]) = None /\ api_step (OCreate 0 true) (after [OLife a_full; ONew 0 QPub]) <> None.
Proof. vm_compute. split; [reflexivity|discriminate]. Qed.

(** The registration thread never meets an object that no longer exists. *)
Theorem c103_no_dangling ops zs s k : runs_to ops zs s -> announced k s <> None.
Proof. exact (no_dangling_lemma ops zs s k). Qed.
Print Assumptions c103_no_dangling.
Example c103_no_dangling_ex : announced QPub (after a_life) = Some [0] /\ announced QSrv (after a_life) = Some [1] /\ announced QCli (after a_life) = Some [2].
Proof. vm_compute. auto. Qed.

(** Whatever is announced exists, runs, belongs to an initialized component, and exactly one object
    of that kind stands for it. *)
Theorem c103_announced_works ops zs s k i : runs_to ops zs s -> announces_it s k i ->
  exists_as s i k /\ works s i /\ component s k /\ exists h, stands s h k i /\ forall h' k', stands s h' k' i -> h' = h.
Proof. exact (announced_lemma ops zs s k i). Qed.
Print Assumptions c103_announced_works.
Example c103_announced_works_ex : announces_it (after a_life) QPub 0 /\ stands (after a_life) 2 QPub 0.
Proof. split; [exists [0]; vm_compute; auto|vm_compute; reflexivity]. Qed.

(** A publisher or subscriber that runs is announced. *)
Theorem c103_running_is_announced ops zs s k i : runs_to ops zs s -> k = QPub \/ k = QSub -> exists_as s i k -> works s i -> announces_it s k i.
Proof. exact (running_lemma ops zs s k i). Qed.
Print Assumptions c103_running_is_announced.
Example c103_running_is_announced_ex : exists_as (after a_life) 0 QPub /\ works (after a_life) 0.
Proof. split; eexists; vm_compute; split; reflexivity. Qed.

(** A successful Create makes something new, not withdrawn before; with its component initialized
    it runs and is announced. *)
Theorem c103_created_is_announced ops zs s h named s' : runs_to ops zs s -> api_step (OCreate h named) s = Some (1%Z, s') ->
  exists k i, stands s' h k i /\ exists_as s' i k /\ (forall j, exists_as s i j -> False) /\ ~ In i (gone s') /\ (component s k -> works s' i /\ announces_it s' k i).
Proof. exact (created_lemma ops zs s h named s'). Qed.
Print Assumptions c103_created_is_announced.
Example c103_created_is_announced_ex : (exists s', api_step (OCreate 7 true) (after (a_life ++ [ONew 7 QSrv])) = Some (1%Z, s')) /\ component (after (a_life ++ [ONew 7 QSrv])) QSrv.
Proof. split; [eexists; vm_compute; reflexivity|]. eexists. vm_compute. split; reflexivity. Qed.

(** It stays announced until its own object is destroyed, deleted or assigned to, or eCAL is
    finalized; nothing done to other objects ends it. *)
Theorem c103_stays_announced ops zs s h k i o z s' : runs_to ops zs s -> announces_it s k i -> stands s h k i -> api_step o s = Some (z, s') ->
  announces_it s' k i \/ ends o h \/ (o = OLife CFinalize /\ ~ component s' k).
Proof. exact (stays_lemma ops zs s h k i o z s'). Qed.
Print Assumptions c103_stays_announced.
Example c103_stays_announced_ex : announces_it (after (a_life ++ [ODestroy 1])) QPub 0 /\ ~ announces_it (after (a_life ++ [ODestroy 2])) QPub 0.
Proof. split; [exists [0]; vm_compute; auto|]. intros (l & E & X). vm_compute in E. injection E as <-. destruct X. Qed.

(** After Destroy or the destructor, what the object stood for does not exist, is not announced, and
    no object stands for it. *)
Theorem c103_destroyed_is_gone ops zs s h k i o z s' : runs_to ops zs s -> stands s h k i -> o = ODestroy h \/ o = ODelete h -> api_step o s = Some (z, s') ->
  (forall j, ~ exists_as s' i j) /\ (forall j, ~ announces_it s' j i) /\ (forall h' j, ~ stands s' h' j i).
Proof. exact (given_up_lemma ops zs s h k i o z s'). Qed.
Print Assumptions c103_destroyed_is_gone.
Example c103_destroyed_is_gone_ex : stands (after a_life) 2 QPub 0 /\ exists s', api_step (ODestroy 2) (after a_life) = Some (1%Z, s').
Proof. split; [|eexists]; vm_compute; reflexivity. Qed.

(** Whatever was announced and no longer is has been withdrawn, unless it is a client without a
    name. *)
Theorem c103_withdrawn ops zs s more zs' s' k i : runs_to ops zs s -> api_run more s = Some (zs', s') -> announces_it s k i -> ~ announces_it s' k i ->
  In i (gone s') \/ (k = QCli /\ nameless s i).
Proof. exact (withdrawn_lemma ops zs s more zs' s' k i). Qed.
Print Assumptions c103_withdrawn.
Example c103_withdrawn_ex : gone (after (a_life ++ [ODestroy 2; OLife CFinalize])) = [0; 2; 1].
Proof. vm_compute. reflexivity. Qed.

(** Nothing is withdrawn twice, and what is withdrawn neither runs nor is announced. *)
Theorem c103_withdrawn_once ops zs s : runs_to ops zs s -> NoDup (gone s) /\ forall i, In i (gone s) -> ~ works s i /\ forall k, ~ announces_it s k i.
Proof. exact (once_lemma ops zs s). Qed.
Print Assumptions c103_withdrawn_once.
Example c103_withdrawn_once_ex : gone (after (a_life ++ [OLife CFinalize; ODestroy 2; ODelete 1; OLife a_full])) = [2; 1; 0].
Proof. vm_compute. reflexivity. Qed.

(** The Finalize that ends eCAL withdraws everything announced, while withdrawals can still be sent,
    and stops every publisher and subscriber. *)
Theorem c103_finalize_withdraws ops zs s z s' : runs_to ops zs s -> api_step (OLife CFinalize) s = Some (z, s') -> p_ctx (s_life s') = None ->
  (forall k, announced k s' = Some []) /\ (forall i k, exists_as s' i k -> k = QPub \/ k = QSub -> ~ works s' i) /\
  (forall k i, announces_it s k i -> In i (gone s') \/ (k = QCli /\ nameless s i)).
Proof. exact (final_lemma ops zs s z s'). Qed.
Print Assumptions c103_finalize_withdraws.
Example c103_finalize_withdraws_ex : gone (after a_life) = [] /\ gone (after (a_life ++ [OLife CFinalize])) = [2; 1; 0] /\ p_ctx (s_life (after (a_life ++ [OLife CFinalize]))) = None.
Proof. vm_compute. auto. Qed.

(** What exists without being announced is never announced later, whatever is called. *)
Theorem c103_never_announced_later ops zs s more zs' s' k i : runs_to ops zs s -> api_run more s = Some (zs', s') -> exists_as s i k -> ~ announces_it s k i -> ~ announces_it s' k i.
Proof. exact (never_lemma ops zs s more zs' s' k i). Qed.
Print Assumptions c103_never_announced_later.
Example c103_never_announced_later_ex : exists_as (after [ONew 0 QSrv; OCreate 0 true]) 0 QSrv /\ announced QSrv (after (a_early ++ [OLife a_full; ODestroy 0])) = Some [].
Proof. split; [eexists; vm_compute; split; reflexivity|vm_compute; reflexivity]. Qed.

(** A server created before Initialize says it is created and runs, but is not announced even once
    eCAL is initialized with services; Create cannot repair it. *)
Theorem c103_early_server_refuted :
  ~ (forall ops zs s h i, runs_to ops zs s -> component s QSrv -> stands s h QSrv i -> works s i -> announces_it s QSrv i).
Proof.
  intros H. destruct (H a_early [0; 1; 0; 0]%Z (after a_early) 0 0) as (l & E & X); [vm_compute; reflexivity|eexists; vm_compute; split; reflexivity|vm_compute; reflexivity|eexists; vm_compute; split; reflexivity|].
  vm_compute in E. injection E as <-. destruct X.
Qed.
Print Assumptions c103_early_server_refuted.

(** A publisher that outlives Finalize and a new Initialize still says it is created, but no longer
    works, and Create does nothing for it. *)
Theorem c103_survivor_refuted :
  ~ (forall ops zs s h k i, runs_to ops zs s -> component s k -> stands s h k i -> works s i).
Proof.
  intros H. destruct (H a_over [0; 0; 1; 0; 0; 0]%Z (after a_over) 0 QPub 0) as (m & E & X); [vm_compute; reflexivity|eexists; vm_compute; split; reflexivity|vm_compute; reflexivity|].
  vm_compute in E. injection E as <-. discriminate.
Qed.
Print Assumptions c103_survivor_refuted.

(** Create of a server returns true although, after Finalize, the server did not start. *)
Theorem c103_server_started_refuted :
  ~ (forall ops zs s h named s' i, runs_to ops zs s -> api_step (OCreate h named) s = Some (1%Z, s') -> stands s' h QSrv i -> works s' i).
Proof.
  intros H. destruct (H [OLife a_full; OLife CFinalize; ONew 0 QSrv] [0; 0; 0]%Z (after [OLife a_full; OLife CFinalize; ONew 0 QSrv]) 0 true (after a_stopped) 0) as (m & E & X); [vm_compute; reflexivity|vm_compute; reflexivity|vm_compute; reflexivity|].
  vm_compute in E. injection E as <-. discriminate.
Qed.
Print Assumptions c103_server_started_refuted.

(** A client without a service name is announced, but its end is never withdrawn. *)
Theorem c103_nameless_client_refuted :
  ~ (forall ops zs s h i z s', runs_to ops zs s -> announces_it s QCli i -> stands s h QCli i -> api_step (ODestroy h) s = Some (z, s') -> In i (gone s')).
Proof.
  intros H. assert (X : In 0 (gone (after (a_nameless ++ [ODestroy 0])))).
  { apply (H a_nameless [0; 0; 1]%Z (after a_nameless) 0 0 1%Z); [vm_compute; reflexivity|exists [0]; vm_compute; auto|vm_compute; reflexivity|vm_compute; reflexivity]. }
  vm_compute in X. exact X.
Qed.
Print Assumptions c103_nameless_client_refuted.
