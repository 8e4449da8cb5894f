(** C79: the time synchronisation. *)
From Coq Require Import List Bool ZArith.
From Verif Require Import Base TgModel TgSpec TgProofs.
Import ListNotations.

(** C79: with modules that have all the functions no sequence of operations calls a null pointer. *)
Theorem c79_no_null_partial : forall files os,
  well_made files -> tg_run files gate_init os <> None.
Proof. exact no_null_lemma. Qed.
Print Assumptions c79_no_null_partial.

Example c79_no_null_case :
  let m := mkTmodule all_symbols 0 77 1 0 in
  let files n := if Nat.eqb n 1 then Some m else None in
  tg_run files gate_init [XNow; XStart SReal 1; XNow; XSync; XStatus; XStop; XStart SReplay 2; XStatus]
  = Some ([0; 0; 77; 1; 0; 0; 0; -1]%Z, [VInit false; VFinal false; VInit false],
          mkGate true SReplay 2 (Some m) None true false true false).
Proof. vm_compute. reflexivity. Qed.

(** C79 refuted: a module without etime_is_synchronized is reported as not loaded, yet initialised
    and asked by the next registration of the process. *)
Theorem c79_null_refuted :
  exists files s,
    files 1 = Some (mkTmodule [YInit; YFinal; YGet] 0 77 1 0)
    /\ tg_run files gate_init [XStart SReal 1] = Some ([0%Z], [VInit false], s)
    /\ tg_loaded_rt s = false /\ registered_sync s = None.
Proof.
  exists (fun n => if Nat.eqb n 1 then Some (mkTmodule [YInit; YFinal; YGet] 0 77 1 0) else None).
  eexists. split; [reflexivity|]. split; [vm_compute; reflexivity|]. split; reflexivity.
Qed.
Print Assumptions c79_null_refuted.

(** C79: while the gate is started it answers with the time of the module it was started with, or 0
    if that module could not be initialised. *)
Theorem c79_answers_partial : forall files os mode name m zs es s z,
  well_made files ->
  tg_run files gate_init (os ++ [XNow]) = Some (zs ++ [z], es, s) ->
  started os None = Some (mode, name) -> mode <> SNone -> name <> 0 -> one_name mode name os ->
  files name = Some m ->
  z = if Z.eqb (tm_init m) 0 then tm_now m else 0%Z.
Proof. exact answers_lemma. Qed.
Print Assumptions c79_answers_partial.

Example c79_answers_case :
  let m := mkTmodule all_symbols 0 77 1 0 in
  let files n := if Nat.eqb n 1 then Some m else None in
  let os := [XStart SReal 1; XStop; XStart SReplay 3; XStop; XStart SReal 1; XStart SNone 0] in
  started os None = Some (SReal, 1) /\ one_name SReal 1 os
  /\ exists es s, tg_run files gate_init (os ++ [XNow]) = Some ([0; 0; 0; 0; 0; 0] ++ [77], es, s)%Z.
Proof.
  cbv zeta. split; [reflexivity|]. split.
  - intros n H. cbn in H. repeat destruct H as [H|H]; try discriminate; try congruence. destruct H.
  - do 2 eexists. vm_compute. reflexivity.
Qed.

(** C79: its status is the error of the module it was started with. *)
Theorem c79_status_partial : forall files os mode name m zs es s z,
  well_made files ->
  tg_run files gate_init (os ++ [XStatus]) = Some (zs ++ [z], es, s) ->
  started os None = Some (mode, name) -> mode <> SNone -> name <> 0 -> one_name mode name os ->
  files name = Some m -> z = tm_error m.
Proof. exact status_lemma. Qed.
Print Assumptions c79_status_partial.

Example c79_status_case :
  let m := mkTmodule all_symbols 0 77 1 5 in
  let files n := if Nat.eqb n 1 then Some m else None in
  exists es s, tg_run files gate_init ([XStart SReplay 1] ++ [XStatus]) = Some ([0] ++ [5], es, s)%Z.
Proof. cbv zeta. do 2 eexists. vm_compute. reflexivity. Qed.

(** C79: without a start the status is an error, without a module it is none. *)
Theorem c79_no_status : forall files os zs es s z,
  tg_run files gate_init (os ++ [XStatus]) = Some (zs ++ [z], es, s) ->
  (started os None = None -> z = (-1)%Z) /\ (forall name, started os None = Some (SNone, name) -> z = 0%Z).
Proof. exact no_status_lemma. Qed.
Print Assumptions c79_no_status.

Example c79_no_status_case :
  started [XStart SNone 0; XStop] None = None /\ started [XStart SNone 0] None = Some (SNone, 0).
Proof. split; reflexivity. Qed.

(** C79: before the start and after the stop it answers 0. *)
Theorem c79_unstarted : forall files os zs es s z,
  tg_run files gate_init (os ++ [XNow]) = Some (zs ++ [z], es, s) ->
  started os None = None -> z = 0%Z.
Proof. exact unstarted_lemma. Qed.
Print Assumptions c79_unstarted.

Example c79_unstarted_case :
  started [XStart SReal 1; XStop] None = None.
Proof. reflexivity. Qed.

(** C79 refuted: started again with another module name the gate reports the new name but asks the
    old module. *)
Theorem c79_other_module_refuted :
  exists files s m1 m2,
    files 1 = Some m1 /\ files 2 = Some m2 /\ tm_now m1 = 77%Z /\ tm_now m2 = 99%Z
    /\ tg_run files gate_init [XStart SReal 1; XStop; XStart SReal 2; XNow]
       = Some ([0; 0; 0; 77]%Z, [VInit false; VFinal false; VInit false], s)
    /\ tg_name s = 2.
Proof.
  exists (fun n => match n with
                   | 1 => Some (mkTmodule all_symbols 0 77 1 0)
                   | 2 => Some (mkTmodule all_symbols 0 99 1 0)
                   | _ => None end).
  do 3 eexists. split; [reflexivity|]. split; [reflexivity|]. split; [reflexivity|]. split; [reflexivity|].
  split; [vm_compute; reflexivity|]. reflexivity.
Qed.
Print Assumptions c79_other_module_refuted.

(** C79: in one mode every successful initialisation of the module is finalised by the stop. *)
Theorem c79_balanced_partial : forall files mode os zs es s,
  well_made files ->
  (forall n m, files n = Some m -> tm_init m = 0%Z) ->
  (forall md n, In (XStart md n) os -> md = mode) ->
  tg_run files gate_init (os ++ [XStop]) = Some (zs, es, s) ->
  forall replay, open_inits replay es = 0%Z.
Proof. exact balanced_lemma. Qed.
Print Assumptions c79_balanced_partial.

Example c79_balanced_case :
  let m := mkTmodule all_symbols 0 77 1 0 in
  let files n := if Nat.eqb n 1 then Some m else None in
  exists s, tg_run files gate_init ([XStart SReal 1; XStop; XStart SReal 1; XStart SReal 1] ++ [XStop])
  = Some ([0; 0; 0; 0; 0]%Z, [VInit false; VFinal false; VInit false; VFinal false], s).
Proof. eexists. vm_compute. reflexivity. Qed.

(** C79 refuted: after a change of the mode the module of the other mode is initialised again and
    never finalised. *)
Theorem c79_unbalanced_refuted :
  exists files zs es s,
    well_made files /\ (forall n m, files n = Some m -> tm_init m = 0%Z)
    /\ tg_run files gate_init [XStart SReal 1; XStop; XStart SReplay 1; XStop] = Some (zs, es, s)
    /\ open_inits false es = 1%Z.
Proof.
  exists (fun n => if Nat.eqb n 1 then Some (mkTmodule all_symbols 0 77 1 0) else None).
  do 3 eexists. split; [|split; [|split; [vm_compute; reflexivity|reflexivity]]].
  - intros n m H y. destruct (Nat.eqb n 1); [|discriminate]. injection H as <-.
    destruct y; cbn; tauto.
  - intros n m H. destruct (Nat.eqb n 1); [|discriminate]. injection H as <-. reflexivity.
Qed.
Print Assumptions c79_unbalanced_refuted.

(** C79 refuted: as built, the time functions ignore the plugin altogether. *)
Theorem c79_ignored_refuted : forall system s, time_now false system s = Some system.
Proof. exact (fun system s => eq_refl). Qed.
Print Assumptions c79_ignored_refuted.

(** C79 refuted: with the gate compiled in, a sleep without plugin (or with one) is done twice. *)
Theorem c79_sleep_twice_refuted :
  exists files s ev, tg_run files gate_init [XStart SNone 0] = Some ([0%Z], ev, s)
  /\ time_sleep true 500 s = Some [500; 500]%Z.
Proof. exists (fun _ => None). do 2 eexists. split; vm_compute; reflexivity. Qed.
Print Assumptions c79_sleep_twice_refuted.
