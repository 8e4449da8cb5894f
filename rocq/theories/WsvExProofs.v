(** Proofs about services as a whole: examples and counterexamples. *)
From Coq Require Import Lia Bool.
From Verif Require Import Base Sample ExpMapModel PbModel PbSpec SerModel SerSpec SrvModel SrvSpec CliModel CliSpec FrmModel RpcModel RpcSpec RpcProofs SdsModel WsvModel WsvSpec WsvProofs WsvNetProofs WsvEndProofs.
From Verif Require SdsSpec SdsProofs SrvProofs.

Definition wnets (ops : list wop) : list dop := flat_map (fun o => match o with WNet o => [o] | _ => [] end) ops.
Lemma wnets_sane ops : Forall SdsSpec.dsane_op (wnets ops) -> wsane ops.
Proof. intros F o I1. rewrite Forall_forall in F. apply F, in_flat_map. exists (WNet o). split; [exact I1|left; reflexivity]. Qed.
Definition modestb (tr : list xev) : bool :=
  forallb (fun e => match e with XAsk _ bs | XBack _ bs => Z.ltb (Z.of_nat (length bs)) (2 ^ 32) | _ => true end) tr.
Definition wfitsb (s : wsv) : bool :=
  (forallb (fun m => Z.ltb (len (ser_sample m)) (2 ^ 32)) (dn_sent (ws_net s)) && forallb (fun c => modestb (co_tr c)) (ws_cons s))%bool.
Lemma wfitsb_ok s : wfitsb s = true -> wfits s.
Proof.
  unfold wfitsb. rewrite andb_true_iff, !forallb_forall. intros [A B]. split.
  - intros m I1. apply Z.ltb_lt, A, I1.
  - intros n c N. specialize (B c (nth_error_In _ _ N)). unfold modestb in B. rewrite forallb_forall in B. split; intros k bs I1; unfold fits; apply Z.ltb_lt; apply (B _ I1).
Qed.
Lemma w_sane : Forall wsane [w_all; w_reuse; w_lost].
Proof.
  assert (A : wsane w_all).
  { apply wnets_sane. change (wnets w_all) with [DStart 1 SdsSpec.d_ca; DStart 2 SdsSpec.d_cb; DStart 3 SdsSpec.d_cc; DAt 1 (PServe 0 (str "s") (str "100") (SdsSpec.d_srv 4000 4001));
      DAt 2 (PClient 0 (str "s")); DAt 3 (PClient 0 (str "s")); DAt 1 PCollect; DAt 2 (PHear 0 1000); DAt 3 (PHear 0 1000)]. SdsProofs.sane_run. }
  repeat (apply Forall_cons); [exact A| | |apply Forall_nil].
  - apply wnets_sane. change (wnets w_reuse) with [DStart 1 SdsSpec.d_ca; DStart 2 SdsSpec.d_cb; DStart 3 SdsSpec.d_cc; DAt 1 (PServe 0 (str "s") (str "100") (SdsSpec.d_srv 4000 4001));
      DAt 2 (PClient 0 (str "s")); DAt 3 (PClient 0 (str "s")); DAt 1 PCollect; DAt 2 (PHear 0 1000); DAt 3 (PHear 0 1000);
      DAt 1 (PEnd 0); DAt 1 (PServe 1 (str "bank") (str "200") (SdsSpec.d_srv 4002 4001))]. SdsProofs.sane_run.
  - apply wnets_sane. change (wnets w_lost) with [DStart 1 SdsSpec.d_ca; DStart 2 SdsSpec.d_cb; DStart 3 SdsSpec.d_cc; DAt 1 (PServe 0 (str "s") (str "100") (SdsSpec.d_srv 4000 4001));
      DAt 2 (PClient 0 (str "s")); DAt 3 (PClient 0 (str "s")); DAt 1 PCollect; DAt 2 (PHear 0 1000); DAt 3 (PHear 0 1000); DAt 2 PCollect; DAt 1 PCollect; DAt 2 (PHear 1 2000)]. SdsProofs.sane_run.
Qed.
Lemma the_s_ok ops : match ws_run ops wsv0 with Some s => wfitsb s | None => false end = true -> wreach ops (the_s ops) /\ wfits (the_s ops).
Proof. unfold the_s, wreach. destruct (ws_run ops wsv0) as [s|]; [|discriminate]. intros H. split; [reflexivity|apply wfitsb_ok, H]. Qed.
Lemma the_con_ok ops n : Nat.ltb n (length (ws_cons (the_s ops))) = true -> con (the_s ops) n (the_con ops n).
Proof. intros L. apply Nat.ltb_lt in L. apply nth_error_nth', L. Qed.
Lemma the_inst_ok ops n : Nat.ltb n (length (ws_insts (the_s ops))) = true -> inst (the_s ops) n (the_inst ops n).
Proof. intros L. apply Nat.ltb_lt in L. apply nth_error_nth', L. Qed.
Lemma reuse_lemma : exists ops s n c i t k bs m req q cb, wreach ops s /\ wsane ops /\ wfits s /\ con s n c /\ co_srv c = Some i /\ inst s i t /\ sx_name (wi_srv t) <> co_name c /\
  In (WCall (co_proc c) (co_x c) m req) ops /\ In (VCall q cb m [] [] req) (wi_evs t) /\ In (XGot k bs) (co_tr c).
Proof.
  destruct (the_s_ok w_reuse) as [R F]; [vm_compute; reflexivity|]. exists w_reuse, (the_s w_reuse), 0, (the_con w_reuse 0), 1, (the_inst w_reuse 1), 0. do 2 eexists. exists [1]%Z, 0, 9. split; [exact R|].
  split; [exact (Forall_inv (Forall_inv_tail w_sane))|]. split; [exact F|]. split; [apply the_con_ok; vm_compute; reflexivity|]. split; [vm_compute; reflexivity|]. split; [apply the_inst_ok; vm_compute; reflexivity|].
  split; [vm_compute; discriminate|]. split; [|split].
  - assert (E : co_proc (the_con w_reuse 0) = 2 /\ co_x (the_con w_reuse 0) = 0) by (vm_compute; split; reflexivity). destruct E as [-> ->]. unfold w_reuse. apply in_app_iff. right. apply in_app_iff. right. apply in_app_iff. left. right. left. reflexivity.
  - vm_compute. left. reflexivity.
  - assert (E : gots (co_tr (the_con w_reuse 0)) = [(0, ser_response (say_executed (str "h1") (str "bank") (str "200") (str "add") [7]%Z 5))]) by (vm_compute; reflexivity).
    assert (I1 : In (0, ser_response (say_executed (str "h1") (str "bank") (str "200") (str "add") [7]%Z 5)) (gots (co_tr (the_con w_reuse 0)))) by (rewrite E; left; reflexivity).
    exact (proj1 (in_gots _ _ _) I1).
Qed.
Lemma lost_lemma : exists ops s p x c d k z n w i t, wreach ops s /\ wsane ops /\ wfits s /\ SdsSpec.client_of (ws_net s) p x c d /\ SdsSpec.calls (ws_net s) p x [(k, z)] /\
  con s n w /\ co_open w = true /\ co_proc w = p /\ co_x w = x /\ co_key w = k /\ co_srv w = Some i /\ inst s i t /\ wi_up t = true /\ k = ca_key (wi_facts t) /\ SdsSpec.knows (ws_net s) p (wi_facts t) /\
  forall more s' w' j bs r, ws_run more s = Some s' -> wfits s' -> con s' n w' -> In (XAsk j bs) (co_tr w') -> ~ In (XAsk j bs) (co_tr w) -> ~ In (XGot j r) (co_tr w').
Proof.
  destruct (the_s_ok w_lost) as [R F]; [vm_compute; reflexivity|]. assert (N : con (the_s w_lost) 0 (the_con w_lost 0)) by (apply the_con_ok; vm_compute; reflexivity).
  assert (P : c_phase (x_cli (co_rpc (the_con w_lost 0))) = PFailed) by (vm_compute; reflexivity). pose proof (fun more s' w' j bs r E F' N' AS NA => never_lemma _ _ more s' _ _ w' j bs R F N P E F' N' AS NA r) as NV.
  exists w_lost, (the_s w_lost), 2, 0, SdsSpec.d_cb. do 3 eexists. exists 0, (the_con w_lost 0), 0, (the_inst w_lost 0). split; [exact R|].
  split; [exact (Forall_inv (Forall_inv_tail (Forall_inv_tail w_sane)))|]. split; [exact F|].
  split; [eexists; split; [vm_compute; reflexivity|]; split; [vm_compute; reflexivity|vm_compute; reflexivity]|].
  split; [eexists; eexists; split; [vm_compute; reflexivity|]; split; [vm_compute; reflexivity|vm_compute; reflexivity]|].
  split; [exact N|]. do 5 (split; [vm_compute; reflexivity|]). split; [apply the_inst_ok; vm_compute; reflexivity|]. do 2 (split; [vm_compute; reflexivity|]).
  split; [eexists; split; [vm_compute; reflexivity|]; vm_compute; left; reflexivity|]. exact NV.
Qed.
Lemma w_mid_ok : wreach w_mid (the_s w_mid) /\ wfits (the_s w_mid) /\ con (the_s w_mid) 0 (the_con w_mid 0) /\ co_srv (the_con w_mid 0) = Some 0 /\ inst (the_s w_mid) 0 (the_inst w_mid 0) /\
  awaited 0 (co_rpc (the_con w_mid 0)) /\
  answerable (pc_host (wi_cfg (the_inst w_mid 0))) (sx_name (wi_srv (the_inst w_mid 0))) (sx_id (wi_srv (the_inst w_mid 0))) 0 (co_tr (the_con w_mid 0)) /\ gots (co_tr (the_con w_mid 0)) = [].
Proof.
  destruct (the_s_ok w_mid) as [R F]; [vm_compute; reflexivity|]. split; [exact R|]. split; [exact F|]. split; [apply the_con_ok; vm_compute; reflexivity|]. split; [vm_compute; reflexivity|]. split; [apply the_inst_ok; vm_compute; reflexivity|].
  split. { split; [left; vm_compute; reflexivity|]. do 2 (split; [vm_compute; reflexivity|]). vm_compute. discriminate. } split; [|vm_compute; reflexivity].
  assert (SO : server_ops (co_tr (the_con w_mid 0)) = [MCallback (str "add") [] [] 3]) by (vm_compute; reflexivity).
  clear R F. intros req Hq. assert (RQ : req = call_bytes (str "add") [1]%Z).
  { assert (AS : forallb (fun e => match e with XAsk _ b => eqb b (call_bytes (str "add") [1]%Z) | _ => true end) (co_tr (the_con w_mid 0)) = true) by (vm_compute; reflexivity).
    rewrite forallb_forall in AS. specialize (AS _ Hq). apply eqb_true in AS. exact AS. }
  subst req. clear Hq. rewrite SO.
  assert (Nm : forall m, names m (call_bytes (str "add") [1]%Z) = true -> m = str "add").
  { intros m Hm. assert (D : de_request (call_bytes (str "add") [1]%Z) = Ok (Request (Header [] [] [] (str "add") [] 0 0) [1]%Z)) by (vm_compute; reflexivity).
    rewrite (SrvProofs.names_ok _ _ _ D) in Hm. apply eqb_true in Hm. symmetry. exact Hm. }
  split; [|split; [|split; [vm_compute; reflexivity|]]].
  - intros o1 bs o2 m Eo. destruct o1 as [|x [|y o1]]; cbn in Eo; discriminate.
  - clear SO. revert Nm. generalize (call_bytes (str "add") [1]%Z) as b. intros b Nm o1 bs o2 m Eo Hm Kn. cbn [app] in Eo. destruct o1 as [|x [|y [|z o1]]]; cbn [app] in Eo; try discriminate. injection Eo as <- <- _. apply Nm in Hm. subst m. vm_compute. discriminate.
  - intros m Hm. apply Nm in Hm. subst m. split; vm_compute; reflexivity.
Qed.
Lemma nth_error_lt {A} (l : list A) n a : nth_error l n = Some a -> n < length l.
Proof. intros H. apply nth_error_Some. congruence. Qed.
Lemma w_all_ok : wreach w_all (the_s w_all) /\ wsane w_all /\ wfits (the_s w_all) /\ no_reuse (the_s w_all).
Proof.
  destruct (the_s_ok w_all) as [R F]; [vm_compute; reflexivity|]. split; [exact R|]. split; [exact (Forall_inv w_sane)|]. split; [exact F|].
  assert (L : length (ws_insts (the_s w_all)) = 1) by (vm_compute; reflexivity). intros i j t u T U _ _ _. apply nth_error_lt in T. apply nth_error_lt in U. lia.
Qed.
Lemma add_names req m : In req [[1]; [2]]%Z -> names m (call_bytes (str "add") req) = true -> m = str "add".
Proof.
  intros I1 Hm. assert (D : de_request (call_bytes (str "add") req) = Ok (Request (Header [] [] [] (str "add") [] 0 0) req)) by (destruct I1 as [<-|[<-|[]]]; vm_compute; reflexivity).
  rewrite (SrvProofs.names_ok _ _ _ D) in Hm. apply eqb_true in Hm. symmetry. exact Hm.
Qed.
Lemma w_prepared : prepared [MCallback (str "add") [] [] 3].
Proof.
  split; [intros o1 bs o2 m Eo; destruct o1 as [|x [|y o1]]; cbn in Eo; discriminate|]. intros m. unfold known, book. cbn [fold_left note]. destruct (eqb (str "add") m); cbn; discriminate.
Qed.
Lemma w_fit tr : forallb (fun e => match e with XAsk _ b => (eqb b (call_bytes (str "add") [1]%Z) || eqb b (call_bytes (str "add") [2]%Z))%bool | _ => true end) tr = true ->
  forall t, pc_host (wi_cfg t) = str "h1" -> sx_name (wi_srv t) = str "s" -> sx_id (wi_srv t) = str "100" -> forall k b, In (XAsk k b) tr -> answers_fit t b.
Proof.
  intros AS t H1 H2 H3 k b I1. rewrite forallb_forall in AS. specialize (AS _ I1). cbn in AS. apply orb_true_iff in AS. unfold answers_fit. rewrite H1, H2, H3. split; [vm_compute; reflexivity|]. intros m Hm.
  assert (m = str "add") as -> by (destruct AS as [AS|AS]; apply eqb_true in AS; subst b; [apply (add_names [1]%Z)|apply (add_names [2]%Z)]; cbn; auto). split; vm_compute; reflexivity.
Qed.
Lemma w_two_ok : let s := the_s w_two in let c := the_con w_two 0 in let t := the_inst w_two 0 in
  wreach w_two s /\ wfits s /\ con s 0 c /\ co_open c = true /\ co_srv c = None /\ c_phase (x_cli (co_rpc c)) <> PFailed /\
  In (XAsk 1 (call_bytes (str "add") [2]%Z)) (co_tr c) /\ inst s 0 t /\ wi_up t = true /\ leads_to c t /\ prepared (wi_ops t) /\ (forall k b, In (XAsk k b) (co_tr c) -> answers_fit t b).
Proof.
  destruct (the_s_ok w_two) as [R F]; [vm_compute; reflexivity|]. cbn zeta. split; [exact R|]. split; [exact F|]. clear R F. split; [apply the_con_ok; vm_compute; reflexivity|]. do 2 (split; [vm_compute; reflexivity|]). split; [vm_compute; discriminate|].
  split; [vm_compute; tauto|]. split; [apply the_inst_ok; vm_compute; reflexivity|]. split; [vm_compute; reflexivity|]. split; [split; [vm_compute; discriminate|split; [vm_compute; discriminate|vm_compute; eexists; reflexivity]]|].
  split; [replace (wi_ops (the_inst w_two 0)) with [MCallback (str "add") [] [] 3] by (vm_compute; reflexivity); apply w_prepared|]. apply w_fit; vm_compute; reflexivity.
Qed.
Lemma w_line_ok : let s := the_s w_line in let c := the_con w_line 0 in let t := the_inst w_line 0 in
  wreach w_line s /\ wfits s /\ con s 0 c /\ co_srv c = Some 0 /\ inst s 0 t /\ awaited 0 (co_rpc c) /\ In 1 (c_queue (x_cli (co_rpc c))) /\ prepared (wi_ops t) /\ (forall k b, In (XAsk k b) (co_tr c) -> answers_fit t b).
Proof.
  destruct (the_s_ok w_line) as [R F]; [vm_compute; reflexivity|]. cbn zeta. split; [exact R|]. split; [exact F|]. clear R F. split; [apply the_con_ok; vm_compute; reflexivity|]. split; [vm_compute; reflexivity|]. split; [apply the_inst_ok; vm_compute; reflexivity|].
  split. { split; [left; vm_compute; reflexivity|]. do 2 (split; [vm_compute; reflexivity|]). vm_compute. discriminate. } split; [vm_compute; tauto|].
  split; [replace (wi_ops (the_inst w_line 0)) with [MCallback (str "add") [] [] 3] by (vm_compute; reflexivity); apply w_prepared|]. apply w_fit; vm_compute; reflexivity.
Qed.
