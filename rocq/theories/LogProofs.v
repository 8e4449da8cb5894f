(** Proofs about the logging. *)
From Verif Require Import Base Sample PbModel SerModel SerSpec SerProofs UdpModel UdpSpec UdpProofs LogModel LogSpec.
From Verif Require McModel DscSpec MonSpec MonProofs.

Arguments datagram : simpl never.
Arguments str : simpl never.
Arguments log_has : simpl never.
Arguments log_apply : simpl never.
Arguments ser_log : simpl never.
Arguments ser_logs : simpl never.
Arguments log_line : simpl never.
Arguments log_message : simpl never.

Lemma run_app me a b : forall s, log_run me (a ++ b) s =
  let (s1, e1) := log_run me a s in let (s2, e2) := log_run me b s1 in (s2, e1 ++ e2).
Proof.
  induction a as [|o a IH]; intros s; cbn [app log_run]; [destruct (log_run me b s); reflexivity|].
  destruct (log_step me o s) as [s1 e1]. rewrite IH. destruct (log_run me a s1) as [s2 e2].
  destruct (log_run me b s2) as [s3 e3]. rewrite app_assoc. reflexivity.
Qed.
Lemma run_snoc me a o s : log_run me (a ++ [o]) s =
  let (s1, e1) := log_run me a s in let (s2, e2) := log_step me o s1 in (s2, e1 ++ e2).
Proof.
  rewrite run_app. destruct (log_run me a s) as [s1 e1]. cbn [log_run]. destruct (log_step me o s1) as [s2 e2].
  rewrite app_nil_r. reflexivity.
Qed.

(** ** Filters *)
Lemma land_range l m : is_level l -> (0 <= Z.land l m < 256)%Z.
Proof.
  intros H. assert (Z.land l m = Z.land l m mod 2 ^ 8)%Z as E.
  { rewrite <- Z.land_ones by lia. rewrite <- Z.land_assoc, (Z.land_comm m), Z.land_assoc, Z.land_ones by lia.
    rewrite (Z.mod_small l) by (unfold is_level in H; lia). reflexivity. }
  rewrite E. apply Z.mod_pos_bound. lia.
Qed.
Lemma to_char_zero x : (0 <= x < 256)%Z -> (to_char x =? 0)%Z = (x =? 0)%Z.
Proof.
  intros H. unfold to_char. destruct (Z.eqb_spec x 0) as [->|N]; [reflexivity|]. apply Z.eqb_neq.
  destruct (Z.lt_ge_cases x 128).
  - rewrite Z.mod_small by lia. lia.
  - replace (x + 128)%Z with (x - 128 + 1 * 256)%Z by lia. rewrite Z.mod_add, Z.mod_small by lia. lia.
Qed.
Lemma enabled_spec l m : is_level l -> negb (Z.land l m =? 0)%Z = true <-> enabled m l.
Proof.
  intros H. rewrite negb_true_iff, Z.eqb_neq. split.
  - intros N. destruct (Z.eq_dec (Z.land l m) 0); [contradiction|].
    assert (exists k, (0 <= k)%Z /\ Z.testbit (Z.land l m) k = true) as (k & K & T).
    { pose proof (land_range l m H) as R. exists (Z.log2 (Z.land l m)). split; [apply Z.log2_nonneg|]. apply Z.bit_log2. lia. }
    rewrite Z.land_spec in T. apply andb_true_iff in T as [T1 T2]. exists k. repeat split; auto.
    destruct (Z.lt_ge_cases k 8); auto. unfold is_level in H.
    rewrite Z.bits_above_log2 in T1; [discriminate|lia|].
    destruct (Z.eq_dec l 0) as [->|]; [cbn; lia|]. apply Z.log2_lt_pow2; [lia|]. 
    apply Z.lt_le_trans with (2 ^ 8)%Z; [change (2^8)%Z with 256%Z; lia|apply Z.pow_le_mono_r; lia].
  - intros (k & K & T1 & T2) E. assert (Z.testbit (Z.land l m) k = true) as T by (rewrite Z.land_spec, T1, T2; reflexivity).
    rewrite E, Z.testbit_0_l in T. discriminate.
Qed.

(** ** Histories *)
Record okay (ops : list lop) (s : clog) : Prop := {
  ok_on : match in_effect ops with
          | None => lo_created s = false
          | Some c => lo_created s = true /\ lo_con s = sk_mask (lc_con c) /\ lo_file s = sk_mask (lc_file c) /\ lo_udp s = sk_mask (lc_udp c) /\
                      (sk_mask (lc_file c) <> 0%Z -> lo_handle s <> None) /\ (sk_mask (lc_udp c) <> 0%Z -> lo_sender s = true)
          end;
  ok_level : lo_level s = level_in_force ops }.
Lemma in_effect_snoc ops o : in_effect (ops ++ [o]) = match o with LStart c _ _ _ => Some c | LStop => None | _ => in_effect ops end.
Proof. unfold in_effect. rewrite fold_left_app. reflexivity. Qed.
Lemma level_snoc ops o : level_in_force (ops ++ [o]) = match o with LStart _ _ _ _ => 1%Z | LSetLevel l => l | _ => level_in_force ops end.
Proof. unfold level_in_force. rewrite fold_left_app. reflexivity. Qed.
Lemma unit_snoc u ops o : unit_after u (ops ++ [o]) = match o with LUnit x => x | _ => unit_after u ops end.
Proof. unfold unit_after. rewrite fold_left_app. reflexivity. Qed.

(** What logging leaves unchanged. *)
Lemma log_do_frame me l msg t s s' e : log_do me l msg t s = (s', e) ->
  lo_created s' = lo_created s /\ lo_level s' = lo_level s /\ lo_con s' = lo_con s /\ lo_file s' = lo_file s /\ lo_udp s' = lo_udp s /\
  lo_handle s' = lo_handle s /\ lo_sender s' = lo_sender s /\ lo_rx s' = lo_rx s /\ lo_network s' = lo_network s /\ lo_queue s' = lo_queue s /\
  lo_unit s' = lo_unit s.
Proof.
  unfold log_do. destruct (_ || _)%bool; [intros E; injection E as <- <-; repeat split|].
  cbv zeta. destruct (Z.lor _ _ =? 0)%Z; [intros E; injection E as <- <-; repeat split|].
  destruct (to_char (Z.land l (lo_file s)) =? 0)%Z; [|destruct (lo_handle s) eqn:H]; intros E; injection E as <- <-; cbn; repeat split; auto.
Qed.

Lemma okay_run me u : forall ops s tr, log_run me ops (log0 u) = (s, tr) -> Forall finds ops -> okay ops s.
Proof.
  induction ops as [|o ops IH] using rev_ind; intros s tr R F.
  - cbn in R. injection R as <- <-. split; reflexivity.
  - apply Forall_app in F as [F Fo]. inversion Fo as [|? ? G _]; subst. rewrite run_snoc in R.
    destruct (log_run me ops (log0 u)) as [s1 e1]. destruct (IH s1 e1 eq_refl F) as [A B].
    destruct (log_step me o s1) as [s2 e2] eqn:St. injection R as <- <-.
    split; [rewrite in_effect_snoc|rewrite level_snoc].
    + destruct o; cbn [log_step] in St;
        try (injection St as <- <-; cbn; exact A);
        try (apply log_do_frame in St as (-> & _ & -> & -> & -> & -> & -> & _); exact A).
      * injection St as <- <-. unfold log_start. cbv zeta. cbn [finds] in G. unfold filter_of.
        destruct (Z.eqb_spec (sk_mask (lc_file c)) 0) as [E0|E0].
        -- cbn. do 4 (split; [reflexivity|]). split; [intros; contradiction|]. intros N. destruct (Z.eqb_spec (sk_mask (lc_udp c)) 0); [contradiction|reflexivity].
        -- destruct G as [G|[G ->]]; [contradiction|]. destruct dir; [|congruence]. cbn. do 4 (split; [reflexivity|]). split; [intros; discriminate|].
           intros N. destruct (Z.eqb_spec (sk_mask (lc_udp c)) 0); [contradiction|reflexivity].
      * injection St as <- <-. unfold log_stop. destruct (lo_created s1) eqn:E; [reflexivity|exact E].
      * destruct (lo_rx s1); [|injection St as <- <-; exact A]. destruct (rx_step log_has (RxArrive bs) r); injection St as <- <-; exact A.
    + destruct o; cbn [log_step] in St;
        try (injection St as <- <-; cbn; exact B);
        try (apply log_do_frame in St as (_ & -> & _); exact B).
      * injection St as <- <-. unfold log_start. cbv zeta. destruct (_ =? 0)%Z; [reflexivity|]. destruct dir; [|reflexivity]. destruct opened; reflexivity.
      * injection St as <- <-. unfold log_stop. destruct (lo_created s1) eqn:E; exact B.
      * injection St as <- <-. reflexivity.
      * destruct (lo_rx s1); [|injection St as <- <-; exact B]. destruct (rx_step log_has (RxArrive bs) r); injection St as <- <-; exact B.
Qed.
Lemma unit_run me u : forall ops s tr, log_run me ops (log0 u) = (s, tr) -> lo_unit s = unit_after u ops.
Proof.
  induction ops as [|o ops IH] using rev_ind; intros s tr R; [cbn in R; injection R as <- <-; reflexivity|].
  rewrite run_snoc in R. rewrite unit_snoc. destruct (log_run me ops (log0 u)) as [s1 e1]. specialize (IH s1 e1 eq_refl).
  destruct (log_step me o s1) as [s2 e2] eqn:St. injection R as <- <-. rewrite <- IH.
  destruct o; cbn [log_step] in St; try (injection St as <- <-; reflexivity);
    try (apply log_do_frame in St as (_ & _ & _ & _ & _ & _ & _ & _ & _ & _ & ->); reflexivity).
  - injection St as <- <-. unfold log_start. cbv zeta. destruct (_ =? 0)%Z; [reflexivity|]. destruct dir; [|reflexivity]. destruct opened; reflexivity.
  - injection St as <- <-. unfold log_stop. destruct (lo_created s1); reflexivity.
  - destruct (lo_rx s1); [|injection St as <- <-; reflexivity]. destruct (rx_step log_has (RxArrive bs) r); injection St as <- <-; reflexivity.
Qed.

(** The output of one message. *)
Lemma log_do_out me l msg t s : is_level l -> msg <> [] -> lo_created s = true ->
  snd (log_do me l msg t s) =
    (if negb (Z.land l (lo_con s) =? 0)%Z then [EConsole msg] else []) ++
    (match lo_handle s with
     | Some n => if negb (Z.land l (lo_file s) =? 0)%Z then [EFile n (upto_zero (log_line me (lo_unit s) t l msg))] else []
     | None => []
     end) ++
    (if (negb (Z.land l (lo_udp s) =? 0)%Z && lo_sender s)%bool
     then [ESend (datagram log_topic (ser_log (log_message me (lo_unit s) t l msg)))] else []).
Proof.
  intros L M C. unfold log_do. rewrite C. destruct msg as [|c0 msg]; [congruence|]. cbn [negb orb]. cbv zeta.
  rewrite !(to_char_zero _ (land_range _ _ L)).
  pose proof (to_char_zero _ (land_range l (lo_con s) L)) as Z1. pose proof (to_char_zero _ (land_range l (lo_file s) L)) as Z2.
  pose proof (to_char_zero _ (land_range l (lo_udp s) L)) as Z3.
  destruct (Z.eqb_spec (Z.lor (Z.lor (to_char (Z.land l (lo_con s))) (to_char (Z.land l (lo_file s)))) (to_char (Z.land l (lo_udp s)))) 0) as [E|E].
  - apply Z.lor_eq_0_iff in E as [E E3]. apply Z.lor_eq_0_iff in E as [E1 E2]. rewrite E1 in Z1. rewrite E2 in Z2. rewrite E3 in Z3.
    rewrite <- Z1, <- Z2, <- Z3. cbn. destruct (lo_handle s); reflexivity.
  - destruct (Z.land l (lo_con s) =? 0)%Z, (Z.land l (lo_file s) =? 0)%Z, (Z.land l (lo_udp s) =? 0)%Z, (lo_handle s), (lo_sender s); reflexivity.
Qed.
Lemma upto_zero_none s : ~ In 0%Z s -> upto_zero s = s.
Proof. induction s as [|c s IH]; intros N; [reflexivity|]. cbn. destruct (Z.eqb_spec c 0) as [->|]; [exfalso; apply N; left; reflexivity|]. rewrite IH; [reflexivity|]. intros I; apply N; right; exact I. Qed.
Lemma log_line_eq me u t l msg : (0 <= t)%Z -> log_line me u t l msg = line_of (entry_of me u t l msg).
Proof.
  intros T. unfold log_line, line_of, entry_of. cbn [en_ms en_host en_unit en_pid en_level en_msg]. rewrite Z.quot_div_nonneg by lia.
  unfold bar. replace (str " ms | ") with (str " ms" ++ str " | ") by reflexivity. rewrite <- !app_assoc. reflexivity.
Qed.

Lemma sinks_lemma me u ops s tr l msg t : log_run me ops (log0 u) = (s, tr) -> Forall finds ops -> is_level l -> msg <> [] -> (0 <= t)%Z ->
  match in_effect ops with
  | None => log_step me (LLog l msg t) s = (s, [])
  | Some c => exists con file udp n line,
      (con = true <-> enabled (sk_mask (lc_con c)) l) /\ (file = true <-> enabled (sk_mask (lc_file c)) l) /\
      (udp = true <-> enabled (sk_mask (lc_udp c)) l) /\
      (~ In 0%Z (line_of (entry_of me (unit_after u ops) t l msg)) -> line = line_of (entry_of me (unit_after u ops) t l msg)) /\
      snd (log_step me (LLog l msg t) s) =
        (if con then [EConsole msg] else []) ++ (if file then [EFile n line] else []) ++
        (if udp then [ESend (datagram (str "_log_message_") (ser_log (LogMsg (t / 1000) (id_host me) (id_pid me) (id_pname me) (unit_after u ops) l msg)))] else [])
  end.
Proof.
  intros R F L M T. destruct (okay_run me u ops s tr R F) as [A _]. pose proof (unit_run me u ops s tr R) as U.
  destruct (in_effect ops) as [c|].
  - destruct A as (C & E1 & E2 & E3 & H & Sd).
    exists (negb (Z.land l (lo_con s) =? 0)%Z), (negb (Z.land l (lo_file s) =? 0)%Z), (negb (Z.land l (lo_udp s) =? 0)%Z),
      (match lo_handle s with Some n => n | None => [] end), (upto_zero (log_line me (lo_unit s) t l msg)).
    rewrite <- E1, <- E2, <- E3. repeat split; try (apply (enabled_spec l _ L)).
    + intros Nz. rewrite log_line_eq, U by exact T. apply upto_zero_none. exact Nz.
    + cbn [log_step]. rewrite (log_do_out me l msg t s L M C). f_equal. f_equal.
      * destruct (lo_handle s) as [n|] eqn:Hd; [reflexivity|]. destruct (Z.eqb_spec (Z.land l (lo_file s)) 0) as [|N]; [reflexivity|].
        exfalso. apply H; [|reflexivity]. intros E. rewrite E2, E in N. apply N. apply Z.land_0_r.
      * unfold log_message, log_topic. rewrite U, Z.quot_div_nonneg by lia. destruct (Z.eqb_spec (Z.land l (lo_udp s)) 0) as [|N]; [reflexivity|].
        rewrite Sd; [reflexivity|]. intros E. rewrite E3, E in N. apply N. apply Z.land_0_r.
  - cbn [log_step]. unfold log_do. rewrite A. reflexivity.
Qed.
Lemma current_lemma me u ops s tr msg t : log_run me ops (log0 u) = (s, tr) -> Forall finds ops ->
  log_step me (LLogCurrent msg t) s = log_step me (LLog (level_in_force ops) msg t) s.
Proof. intros R F. destruct (okay_run me u ops s tr R F) as [_ B]. cbn [log_step]. rewrite B. reflexivity. Qed.

(** ** Receiving *)
Definition ears (me : ident) (ops : list lop) : ear := fold_left (hear me) ops (Ear false false []).
Record hearing (me : ident) (ops : list lop) (s : clog) (tr : list lev) : Prop := {
  hr_open : ea_open (ears me ops) = match lo_rx s with Some Listening => true | _ => false end;
  hr_net : ea_net (ears me ops) = lo_network s;
  hr_all : fetched tr ++ lo_queue s = ea_heard (ears me ops) }.
Lemma fetched_app a b : fetched (a ++ b) = fetched a ++ fetched b.
Proof. apply flat_map_app. Qed.
Lemma log_do_fetched me l msg t s : fetched (snd (log_do me l msg t s)) = [].
Proof.
  unfold log_do. destruct (_ || _)%bool; [reflexivity|]. cbv zeta. destruct (Z.lor _ _ =? 0)%Z; [reflexivity|].
  destruct (to_char (Z.land l (lo_file s)) =? 0)%Z; [|destruct (lo_handle s)]; cbn [snd]; rewrite !fetched_app;
    destruct (_ =? 0)%Z; destruct (_ || _)%bool; reflexivity.
Qed.
Lemma hearing_run me u : forall ops s tr, log_run me ops (log0 u) = (s, tr) -> Forall no_buffer ops -> hearing me ops s tr.
Proof.
  induction ops as [|o ops IH] using rev_ind; intros s tr R F; [cbn in R; injection R as <- <-; split; reflexivity|].
  apply Forall_app in F as [F Fo]. inversion Fo as [|? ? G _]; subst. rewrite run_snoc in R.
  destruct (log_run me ops (log0 u)) as [s1 e1]. destruct (IH s1 e1 eq_refl F) as [A B C].
  destruct (log_step me o s1) as [s2 e2] eqn:St. injection R as <- <-.
  assert (ears me (ops ++ [o]) = hear me (ears me ops) o) as EE by (unfold ears; rewrite fold_left_app; reflexivity).
  assert (forall l msg t, log_do me l msg t s1 = (s2, e2) -> hear me (ears me ops) o = ears me ops -> hearing me (ops ++ [o]) s2 (e1 ++ e2)) as Hlog.
  { intros l msg t D Hh. pose proof (log_do_fetched me l msg t s1) as Fe. rewrite D in Fe. cbn [snd] in Fe.
    apply log_do_frame in D as (_ & _ & _ & _ & _ & _ & _ & E1 & E2 & E3 & _).
    split; rewrite EE, Hh, ?E1, ?E2, ?E3; auto. rewrite fetched_app, Fe, app_nil_r. exact C. }
  destruct o; cbn [log_step] in St; try (eapply Hlog; [exact St|reflexivity]);
    try (injection St as <- <-; split; rewrite EE; cbn; rewrite ?app_nil_r; assumption).
  - injection St as <- <-. split; rewrite EE; cbn [hear].
    + cbn [ea_open]. unfold begins, log_start. cbv zeta. unfold filter_of. destruct (_ =? 0)%Z; [reflexivity|]. destruct dir; [destruct opened; reflexivity|].
      cbn. exact A.
    + cbn [ea_net]. unfold log_start. cbv zeta. destruct (_ =? 0)%Z; [reflexivity|]. destruct dir; [destruct opened; reflexivity|]. reflexivity.
    + cbn [ea_heard]. rewrite app_nil_r, <- C. f_equal. unfold log_start. cbv zeta. destruct (_ =? 0)%Z; [reflexivity|]. destruct dir; [destruct opened; reflexivity|]. reflexivity.
  - injection St as <- <-. unfold log_stop. destruct (lo_created s1); split; rewrite EE; cbn; rewrite ?app_nil_r; assumption.
  - injection St as <- <-. split; rewrite EE; cbn; try assumption. rewrite fetched_app. cbn. rewrite !app_nil_r. exact C.
  - exfalso. apply G. reflexivity.
  - destruct (lo_rx s1) as [r|] eqn:Hr.
    + destruct r; cbn [rx_step] in St; cbn [hear] in EE.
      * rewrite A in EE. destruct (receive bs) as [| |n p] eqn:Rc; cbn [fold_left] in St; injection St as <- <-; cbn in EE; split; rewrite EE; cbn; rewrite ?app_nil_r; try assumption; try reflexivity.
        -- unfold log_has, log_topic. destruct (eqb n (str "_log_message_")); [|exact A].
           destruct (de_log p); try exact A. destruct (_ || _)%bool; [reflexivity|exact A].
        -- unfold log_has, log_topic. destruct (eqb n (str "_log_message_")); [|exact B].
           destruct (de_log p); try exact B. destruct (_ || _)%bool; [exact B|exact B].
        -- unfold log_has, log_topic. destruct (eqb n (str "_log_message_")); [|exact C].
           cbn [fold_left]. unfold log_apply. destruct (de_log p); try exact C. rewrite B, orb_comm, eqb_sym.
           destruct (lo_network s1 || eqb (lg_hname a) (id_host me))%bool; [|exact C].
           change (fetched e1 ++ lo_queue s1 ++ [a] = ea_heard (ears me ops) ++ [a]). rewrite app_assoc, C. reflexivity.
      * rewrite A in EE. injection St as <- <-. split; rewrite EE; cbn; rewrite ?app_nil_r; assumption.
      * rewrite A in EE. injection St as <- <-. split; rewrite EE; cbn; rewrite ?app_nil_r; assumption.
    + injection St as <- <-. cbn [hear] in EE. rewrite A in EE. split; rewrite EE; rewrite ?Hr, ?app_nil_r; assumption.
Qed.
Lemma fetched_lemma me u ops s tr : log_run me ops (log0 u) = (s, tr) -> Forall no_buffer ops -> fetched tr ++ lo_queue s = heard me ops.
Proof. intros R F. apply (hearing_run me u ops s tr R F). Qed.

Lemma de_ser_log m : lg_level m <> 0%Z -> wf_log m -> (len (ser_log m) < 2 ^ 32)%Z -> de_log (ser_log m) = Ok m.
Proof. intros N W B. apply log_round'; auto. intros E. subst m. apply N. reflexivity. Qed.

(** ** Delivery *)
Definition open_ear (s : clog) : Prop := lo_rx s = Some Listening.
Lemma open_spec me u ops s tr : log_run me ops (log0 u) = (s, tr) -> Forall no_buffer ops ->
  listens me ops = true <-> lo_rx s = Some Listening.
Proof.
  intros R F. destruct (hearing_run me u ops s tr R F) as [A _ _]. change (ea_open (ears me ops) = true <-> lo_rx s = Some Listening).
  rewrite A. destruct (lo_rx s) as [[]|]; split; intros E; congruence.
Qed.
Lemma topic_ok : no_zero log_topic /\ (Z.of_nat (length log_topic) < 65535)%Z.
Proof. split; [|reflexivity]. unfold no_zero, log_topic. vm_compute. intuition congruence. Qed.
Lemma arrive_log me m s : lo_rx s = Some Listening -> lg_level m <> 0%Z -> wf_log m -> (len (ser_log m) < 2 ^ 32)%Z ->
  log_step me (LArrive (datagram log_topic (ser_log m))) s =
  (set_queue (if (eqb (id_host me) (lg_hname m) || lo_network s)%bool then lo_queue s ++ [m] else lo_queue s) s, []).
Proof.
  intros Rx N W B. cbn [log_step]. rewrite Rx. cbn [rx_step]. destruct topic_ok as [T1 T2].
  rewrite (round_trip _ _ T1 T2). unfold log_has. rewrite eqb_refl. cbn [fold_left]. unfold log_apply. rewrite (de_ser_log m N W B).
  unfold set_queue. rewrite Rx. reflexivity.
Qed.
Lemma all_delivered me s : lo_rx s = Some Listening -> forall ms, Forall (fun m => lg_level m <> 0%Z /\ wf_log m /\ (len (ser_log m) < 2 ^ 32)%Z) ms ->
  log_run me (map (fun m => LArrive (datagram log_topic (ser_log m))) ms) s =
  (set_queue (lo_queue s ++ filter (fun m => eqb (id_host me) (lg_hname m) || lo_network s)%bool ms) s, []).
Proof.
  intros Rx ms. revert s Rx. induction ms as [|m ms IH]; intros s Rx F.
  - cbn. rewrite app_nil_r. destruct s; reflexivity.
  - inversion F as [|? ? (N & W & B) F']; subst. cbn [map log_run]. rewrite (arrive_log me m s Rx N W B). rewrite IH by (exact Rx || exact F').
    cbn [app set_queue lo_queue lo_network filter]. destruct (_ || _)%bool; unfold set_queue; cbn; [rewrite <- app_assoc|]; reflexivity.
Qed.
Lemma delivered_lemma me u ops s tr ms : log_run me ops (log0 u) = (s, tr) -> Forall no_buffer ops -> listens me ops = true ->
  Forall (fun m => lg_level m <> 0%Z /\ wf_log m /\ (len (ser_log m) < 2 ^ 32)%Z) ms ->
  snd (log_run me (map (fun m => LArrive (datagram (str "_log_message_") (ser_log m))) ms ++ [LFetch]) s) =
  [EFetched (lo_queue s ++ filter (fun m => eqb (id_host me) (lg_hname m) || with_network ops)%bool ms)].
Proof.
  intros R F L Fm. apply (open_spec me u ops s tr R F) in L. destruct (hearing_run me u ops s tr R F) as [_ B _].
  assert (with_network ops = lo_network s) as ->.
  { rewrite <- B. clear. unfold with_network, ears. assert (forall b (e : ear), ea_net e = b ->
      fold_left (fun (a : bool) op => match op with LStart c _ _ _ => lc_network c | _ => a end) ops b = ea_net (fold_left (hear me) ops e)) as H.
    { induction ops as [|o ops IH]; intros b e E; cbn [fold_left]; [auto|]. apply IH. destruct o; cbn [hear]; auto.
      destruct (ea_open e); [|exact E]. destruct (receive bs); [exact E|exact E|]. destruct (eqb _ _); [|exact E].
      destruct (de_log _); try exact E. destruct (_ || _)%bool; exact E. }
    exact (H false (Ear false false []) eq_refl). }
  rewrite run_app. change (str "_log_message_") with log_topic. rewrite (all_delivered me s L ms Fm). reflexivity.
Qed.
Lemma fetch_empties me s s' e : log_step me LFetch s = (s', e) \/ log_step me LFetchBuffer s = (s', e) -> lo_queue s' = [].
Proof. intros [E|E]; injection E as <- <-; reflexivity. Qed.
Lemma buffer_lemma me s : lo_queue s <> [] -> Forall wf_log (lo_queue s) -> (len (ser_logs (lo_queue s)) < 2 ^ 32)%Z ->
  exists s' bs, log_step me LFetchBuffer s = (s', [EBuffer bs]) /\ de_logs bs = Ok (lo_queue s) /\ s' = fst (log_step me LFetch s).
Proof. intros N F B. exists (set_queue [] s), (ser_logs (lo_queue s)). split; [reflexivity|]. split; [|reflexivity]. apply logs_round; auto. Qed.

(** ** Nothing works without the log directory *)
Lemma dead_run me : forall ops s, lo_created s = false -> lo_rx s = None -> lo_queue s = [] -> Forall (fun op => begins op = false) ops ->
  Forall (fun e => e = EFetched [] \/ e = EBuffer []) (snd (log_run me ops s)).
Proof.
  induction ops as [|o ops IH]; intros s C Rx Q F; [constructor|]. inversion F as [|? ? G F']; subst. cbn [log_run].
  destruct (log_step me o s) as [s1 e1] eqn:St. destruct (log_run me ops s1) as [s2 e2] eqn:R. cbn [snd].
  assert (lo_created s1 = false /\ lo_rx s1 = None /\ lo_queue s1 = [] /\ Forall (fun e => e = EFetched [] \/ e = EBuffer []) e1) as (C1 & R1 & Q1 & E1).
  { destruct o; cbn [log_step] in St; try (unfold log_do in St; rewrite C in St; cbn [negb orb] in St);
      try (rewrite Rx in St); try (injection St as <- <-; cbn; auto; fail).
    - injection St as <- <-. unfold log_start. cbv zeta. unfold filter_of. cbn [begins] in G. apply orb_false_iff in G as [G1 G2].
      rewrite G1. destruct dir; [discriminate|]. cbn. auto.
    - injection St as <- <-. unfold log_stop. rewrite C. auto.
    - injection St as <- <-. cbn. rewrite Q. repeat split; auto.
    - injection St as <- <-. cbn. rewrite Q. repeat split; auto. }
  apply Forall_app. split; [exact E1|]. specialize (IH s1 C1 R1 Q1 F'). rewrite R in IH. exact IH.
Qed.
Lemma missing_lemma me u c stamp opened ops : sk_mask (lc_file c) <> 0%Z -> Forall (fun op => begins op = false) ops ->
  Forall (fun e => e = EFetched [] \/ e = EBuffer []) (snd (log_run me (LStart c None stamp opened :: ops) (log0 u))).
Proof.
  intros N F. apply dead_run; try reflexivity. constructor; [|exact F]. cbn. apply Z.eqb_neq in N. rewrite N. reflexivity.
Qed.

(** ** The file *)
Lemma content_run me n : forall ops s, (lo_handle s = Some n \/ lo_handle s = None) -> lo_handle s = None \/ amem n (lo_files s) = true -> Forall (fun op => match op with LStart _ _ _ _ => False | _ => True end) ops ->
  forall x s' tr, aget n (lo_files s) = Some x -> log_run me ops s = (s', tr) ->
  aget n (lo_files s') = Some (x ++ flat_map (fun l => l ++ [10%Z]) (filed tr)).
Proof.
  induction ops as [|o ops IH]; intros s H Hm F x s' tr A R.
  - cbn in R. injection R as <- <-. cbn. rewrite app_nil_r. exact A.
  - inversion F as [|? ? G F']; subst. cbn [log_run] in R. destruct (log_step me o s) as [s1 e1] eqn:St.
    destruct (log_run me ops s1) as [s2 e2] eqn:R2. injection R as <- <-.
    assert ((lo_handle s1 = Some n \/ lo_handle s1 = None) /\ aget n (lo_files s1) = Some (x ++ flat_map (fun l => l ++ [10%Z]) (filed e1))) as [H1 A1].
    { assert (forall l msg t, log_do me l msg t s = (s1, e1) -> (lo_handle s1 = Some n \/ lo_handle s1 = None) /\ aget n (lo_files s1) = Some (x ++ flat_map (fun l => l ++ [10%Z]) (filed e1))) as D.
      { intros l msg t D. pose proof (log_do_frame _ _ _ _ _ _ _ D) as (_ & _ & _ & _ & _ & Hh & _). rewrite Hh. split; [exact H|].
        unfold log_do in D. destruct (_ || _)%bool; [injection D as <- <-; cbn; rewrite app_nil_r; exact A|]. cbv zeta in D.
        destruct (Z.lor _ _ =? 0)%Z; [injection D as <- <-; cbn; rewrite app_nil_r; exact A|].
        destruct (to_char (Z.land l (lo_file s)) =? 0)%Z; [|destruct (lo_handle s) as [n'|] eqn:Hd].
        - injection D as <- <-. cbn [lo_files]. unfold filed. rewrite !flat_map_app. destruct (_ =? 0)%Z, (_ || _)%bool; cbn; rewrite app_nil_r; exact A.
        - destruct H as [H|]; [|discriminate]. injection H as ->. injection D as <- <-. cbn [lo_files]. unfold set_file. rewrite aget_aset_same, A.
          f_equal. unfold filed. rewrite !flat_map_app. destruct (_ =? 0)%Z, (_ || _)%bool; cbn; rewrite ?app_nil_r; reflexivity.
        - injection D as <- <-. cbn [lo_files]. unfold filed. rewrite !flat_map_app. destruct (_ =? 0)%Z, (_ || _)%bool; cbn; rewrite app_nil_r; exact A. }
      destruct o; cbn [log_step] in St; try contradiction; try (eapply D; exact St);
        try (injection St as <- <-; cbn; rewrite app_nil_r; auto; fail).
      - injection St as <- <-. unfold log_stop. destruct (lo_created s); cbn; rewrite app_nil_r; auto.
      - destruct (lo_rx s); [destruct (rx_step log_has (RxArrive bs) r)|]; injection St as <- <-; cbn; rewrite app_nil_r; auto. }
    assert (lo_handle s1 = None \/ amem n (lo_files s1) = true) as Hm1 by (right; apply amem_spec; eexists; exact A1).
    pose proof (IH s1 H1 Hm1 F' _ _ _ A1 R2) as Q. rewrite Q. f_equal. unfold filed. rewrite flat_map_app. rewrite flat_map_app, app_assoc. reflexivity.
Qed.

Lemma lines_go_one l : forall cur rest, ~ In 10%Z l -> lines_go cur (l ++ 10%Z :: rest) = (cur ++ l) :: lines_go [] rest.
Proof.
  induction l as [|c l IH]; intros cur rest N; cbn [app lines_go].
  - cbn. rewrite app_nil_r. reflexivity.
  - destruct (Z.eqb_spec c 10) as [->|E]; [destruct N; left; reflexivity|]. rewrite IH by (intros H; apply N; right; exact H).
    rewrite <- app_assoc. reflexivity.
Qed.
Lemma lines_of ls : Forall (fun l => ~ In 10%Z l) ls -> lines (flat_map (fun l => l ++ [10%Z]) ls) = ls.
Proof.
  unfold lines. induction 1 as [|l ls N F IH]; [reflexivity|]. cbn [flat_map]. rewrite <- app_assoc. cbn [app].
  rewrite lines_go_one by exact N. cbn [app]. f_equal. exact IH.
Qed.

Lemma split_at (c : Z) : forall x y a b : list Z, ~ In c x -> ~ In c y -> x ++ c :: a = y ++ c :: b -> x = y /\ a = b.
Proof.
  induction x as [|h x IH]; intros [|k y] a b Nx Ny E; cbn in E.
  - injection E as ->. auto.
  - injection E as -> _. destruct Ny. left. reflexivity.
  - injection E as -> _. destruct Nx. left. reflexivity.
  - injection E as -> E. apply IH in E as [-> ->]; [auto| |]; intros H; [apply Nx|apply Ny]; right; exact H.
Qed.
Lemma long_text_spec z : (0 <= z < 10 ^ 19)%Z -> Forall (fun c => 48 <= c <= 57)%Z (long_text z) /\ fold_left (fun n c => n * 10 + (c - 48))%Z (long_text z) 0%Z = z.
Proof.
  intros B. unfold long_text. destruct (Z.ltb_spec z 0) as [L|_]; [lia|].
  destruct (MonProofs.mc_decimal_spec 19 z []) as (ds & E & F & _ & V); [change (10 ^ Z.of_nat 20)%Z with (10 ^ 20)%Z; lia|].
  rewrite E, app_nil_r. split; [exact F|]. rewrite V. lia.
Qed.
Lemma long_text_inj a b : (0 <= a < 10 ^ 19)%Z -> (0 <= b < 10 ^ 19)%Z -> long_text a = long_text b -> a = b.
Proof. intros A B E. destruct (long_text_spec a A) as [_ Va]. destruct (long_text_spec b B) as [_ Vb]. rewrite <- Va, <- Vb, E. reflexivity. Qed.
Lemma digit_not ds c : Forall (fun c => 48 <= c <= 57)%Z ds -> (c < 48 \/ 57 < c)%Z -> ~ In c ds.
Proof. intros F B H. rewrite Forall_forall in F. apply F in H. lia. Qed.
Lemma level_name_inj a b : named_level a -> named_level b -> level_name a = level_name b -> a = b.
Proof.
  unfold named_level. cbn [In]. intros A B E.
  repeat (destruct A as [<-|A]; [repeat (destruct B as [<-|B]; [try reflexivity; vm_compute in E; discriminate|]); contradiction|]). contradiction.
Qed.
Lemma level_name_plain a : named_level a -> Forall (fun c => (48 <= c < 124)%Z) (level_name a).
Proof.
  unfold named_level. cbn [In]. intros A.
  repeat (destruct A as [<-|A]; [vm_compute; repeat constructor; discriminate|]). contradiction.
Qed.
Lemma split_bar x y a b : no_bar x -> no_bar y -> x ++ str " | " ++ a = y ++ str " | " ++ b -> x = y /\ a = b.
Proof.
  intros X Y E. change (str " | ") with [32%Z; 124%Z; 32%Z] in E.
  assert ((x ++ [32%Z]) ++ 124%Z :: 32%Z :: a = (y ++ [32%Z]) ++ 124%Z :: 32%Z :: b) as E' by (rewrite <- !app_assoc; exact E).
  apply split_at in E' as [E1 E2].
  - apply app_inj_tail in E1 as [-> _]. injection E2 as ->. auto.
  - intros H. apply in_app_iff in H as [H|[H|[]]]; [exact (X H)|discriminate].
  - intros H. apply in_app_iff in H as [H|[H|[]]]; [exact (Y H)|discriminate].
Qed.
Lemma ms_no_bar z : (0 <= z < 10 ^ 19)%Z -> no_bar (long_text z ++ str " ms").
Proof.
  intros B H. apply in_app_iff in H as [H|H].
  - revert H. apply digit_not; [apply long_text_spec; exact B|lia].
  - vm_compute in H. intuition discriminate.
Qed.
Lemma pid_no_bar z : (0 <= z < 10 ^ 19)%Z -> no_bar (long_text z).
Proof. intros B. apply digit_not; [apply long_text_spec; exact B|lia]. Qed.
Lemma level_no_bar l : named_level l -> no_bar (level_name l).
Proof. intros L H. pose proof (level_name_plain l L) as F. rewrite Forall_forall in F. apply F in H. lia. Qed.
Lemma line_inj a b : plain_entry a -> plain_entry b -> line_of a = line_of b -> a = b.
Proof.
  intros (A1 & A2 & A3 & A4 & _ & _ & _ & A8) (B1 & B2 & B3 & B4 & _ & _ & _ & B8) E. unfold line_of in E.
  change (str " ms | ") with (str " ms" ++ str " | ") in E. rewrite <- !(app_assoc (str " ms")) in E. rewrite !(app_assoc _ (str " ms")) in E.
  apply split_bar in E as [E1 E]; [|apply ms_no_bar; assumption|apply ms_no_bar; assumption].
  apply split_bar in E as [E2 E]; [|assumption|assumption].
  apply split_bar in E as [E3 E]; [|assumption|assumption].
  apply split_bar in E as [E4 E]; [|apply pid_no_bar; assumption|apply pid_no_bar; assumption].
  apply split_bar in E as [E5 E6]; [|apply level_no_bar; assumption|apply level_no_bar; assumption].
  apply app_inv_tail in E1. apply long_text_inj in E1; [|assumption|assumption]. apply long_text_inj in E4; [|assumption|assumption].
  apply level_name_inj in E5; [|assumption|assumption]. destruct a, b; cbn in *; subst; reflexivity.
Qed.
Lemma line_plain e : plain_entry e -> one_line (line_of e).
Proof.
  intros (B1 & B2 & _ & _ & [H1 H2] & [U1 U2] & [M1 M2] & L). unfold line_of.
  destruct (long_text_spec _ B1) as [D1 _]. destruct (long_text_spec _ B2) as [D2 _].
  pose proof (level_name_plain _ L) as Lp. rewrite Forall_forall in Lp.
  split; intros H; rewrite !in_app_iff in H;
    (destruct H as [H|[H|[H|[H|[H|[H|[H|[H|[H|[H|H]]]]]]]]]];
     [revert H; apply digit_not; [exact D1|lia]|vm_compute in H; intuition discriminate|tauto|vm_compute in H; intuition discriminate|tauto
     |vm_compute in H; intuition discriminate|revert H; apply digit_not; [exact D2|lia]|vm_compute in H; intuition discriminate
     |apply Lp in H; lia|vm_compute in H; intuition discriminate|tauto]).
Qed.

(** The file of a start: what the messages make of it. *)
Lemma start_file me u ops0 s0 tr0 c d stamp : log_run me ops0 (log0 u) = (s0, tr0) -> sk_mask (lc_file c) <> 0%Z ->
  let s1 := fst (log_step me (LStart c (Some d) stamp true) s0) in
  lo_handle s1 = Some (log_name me (unit_after u ops0) d stamp) /\ aget (log_name me (unit_after u ops0) d stamp) (lo_files s1) = Some [].
Proof.
  intros R N. cbn [log_step fst]. unfold log_start. cbv zeta. unfold filter_of. apply Z.eqb_neq in N. rewrite N.
  cbn [lo_handle lo_files]. rewrite <- (unit_run me u ops0 s0 tr0 R). split; [reflexivity|]. unfold set_file. apply aget_aset_same.
Qed.
Lemma content_lemma me u ops0 s0 tr0 c d stamp ops s tr : log_run me ops0 (log0 u) = (s0, tr0) -> sk_mask (lc_file c) <> 0%Z ->
  Forall (fun op => match op with LStart _ _ _ _ => False | _ => True end) ops ->
  log_run me (LStart c (Some d) stamp true :: ops) s0 = (s, tr) ->
  aget (log_name me (unit_after u ops0) d stamp) (lo_files s) = Some (flat_map (fun l => l ++ [10%Z]) (filed tr)).
Proof.
  intros R N F R'. destruct (start_file me u ops0 s0 tr0 c d stamp R N) as [H1 H2]. cbn [log_run log_step] in R'. cbn [log_step fst] in H1, H2.
  set (s1 := log_start me c (Some d) stamp true s0) in *. clearbody s1. destruct (log_run me ops s1) as [s2 e2] eqn:R2. injection R' as <- <-.
  cbn [app]. assert (amem (log_name me (unit_after u ops0) d stamp) (lo_files s1) = true) as Hm by (apply amem_spec; eexists; exact H2).
  exact (content_run me _ ops s1 (or_introl H1) (or_intror Hm) F [] s2 e2 H2 R2).
Qed.
(** Messages of one level each: the lines they give. *)
Lemma filed_app a b : filed (a ++ b) = filed a ++ filed b. Proof. apply flat_map_app. Qed.
Lemma filed_logs me mask n : forall ms s, lo_created s = true -> lo_handle s = Some n -> lo_file s = mask ->
  Forall (fun m => is_level (fst (fst m)) /\ snd (fst m) <> [] /\ (0 <= snd m)%Z /\ ~ In 0%Z (line_of (entry_of me (lo_unit s) (snd m) (fst (fst m)) (snd (fst m))))) ms ->
  filed (snd (log_run me (logs ms) s)) =
  map (fun m => line_of (entry_of me (lo_unit s) (snd m) (fst (fst m)) (snd (fst m)))) (filter (fun m => negb (Z.land (fst (fst m)) mask =? 0)%Z) ms).
Proof.
  induction ms as [|[[l msg] t] ms IH]; intros s C H M F; [reflexivity|]. inversion F as [|? ? (L & N & T & Z0) F']; subst. cbn [fst snd] in *.
  cbn [logs map log_run fst snd log_step]. destruct (log_do me l msg t s) as [s1 e1] eqn:D. change (map (fun m => LLog (fst (fst m)) (snd (fst m)) (snd m)) ms) with (logs ms).
  destruct (log_run me (logs ms) s1) as [s2 e2] eqn:R. cbn [snd]. rewrite filed_app.
  pose proof (log_do_frame _ _ _ _ _ _ _ D) as (G1 & G2 & G3 & G4 & G5 & G6 & G7 & G8 & G9 & G10 & G11).
  assert (lo_unit s1 = lo_unit s) as U by congruence.
  specialize (IH s1 ltac:(congruence) ltac:(congruence) ltac:(congruence)). rewrite U, R in IH. cbn [snd] in IH. rewrite (IH F').
  cbn [filter]. assert (filed e1 = if negb (Z.land l (lo_file s) =? 0)%Z then [line_of (entry_of me (lo_unit s) t l msg)] else []) as ->.
  { pose proof (land_range l (lo_file s) L) as Rg. clear IH R F F'. unfold log_do in D. rewrite C in D. destruct msg as [|c0 msg]; [congruence|]. cbn [negb orb] in D. cbv zeta in D.
    pose proof (to_char_zero _ Rg) as Tz. rewrite Tz, H in D.
    destruct (Z.lor _ _ =? 0)%Z eqn:O.
    - injection D as <- <-. apply Z.eqb_eq in O. apply Z.lor_eq_0_iff in O as [O _]. apply Z.lor_eq_0_iff in O as [_ O].
      apply Z.eqb_eq in O. rewrite Tz in O. rewrite O. reflexivity.
    - destruct (Z.land l (lo_file s) =? 0)%Z eqn:Q; injection D as <- <-; rewrite !filed_app; destruct (to_char (Z.land l (lo_con s)) =? 0)%Z, (_ || _)%bool; cbn [filed flat_map app negb];
        try reflexivity; rewrite upto_zero_none by (rewrite log_line_eq; assumption); rewrite log_line_eq by assumption; reflexivity. }
  destruct (negb _); reflexivity.
Qed.

(** ** Filters *)
Lemma to_char_bit z k : (0 <= k < 8)%Z -> Z.testbit (to_char z) k = Z.testbit z k.
Proof.
  intros K. unfold to_char. rewrite <- (Z.mod_pow2_bits_low (_ - 128) 8 k) by lia. rewrite <- (Z.mod_pow2_bits_low z 8 k) by lia.
  f_equal. change (2 ^ 8)%Z with 256%Z. rewrite Zminus_mod, Zmod_mod, <- Zminus_mod. f_equal. lia.
Qed.
Lemma to_char_range z : is_filter (to_char z).
Proof. unfold is_filter, to_char. pose proof (Z.mod_pos_bound (z + 128) 256 ltac:(lia)). lia. Qed.

Definition value_of (w : text) : Z := match aget w level_words with Some v => v | None => 0%Z end.
Lemma parse_fold (w : text) : forall (l : list (text * Z)) m k, NoDup (map fst l) -> (0 <= k < 8)%Z ->
  Z.testbit (fold_left (fun m p => if eqb w (fst p) then to_char (Z.lor m (snd p)) else m) l m) k =
  (Z.testbit m k || match aget w l with Some v => Z.testbit v k | None => false end)%bool.
Proof.
  induction l as [|[x v] l IH]; intros m k N K; cbn [fold_left fst snd aget].
  - rewrite orb_false_r. reflexivity.
  - cbn [map fst] in N. inversion N as [|? ? N1 N2]; subst. rewrite IH by assumption. destruct (eqb w x) eqn:E.
    + apply eqb_true in E. subst x. destruct (aget w l) eqn:G; [apply aget_in_keys in G; contradiction|].
      rewrite to_char_bit, Z.lor_spec, orb_false_r by exact K. reflexivity.
    + reflexivity.
Qed.
Lemma words_nodup : NoDup (map fst level_words).
Proof. repeat (constructor; [vm_compute; intuition discriminate|]). constructor. Qed.
Lemma parse_word_bit m w k : (0 <= k < 8)%Z -> Z.testbit (parse_word m w) k = (Z.testbit m k || Z.testbit (value_of w) k)%bool.
Proof.
  intros K. unfold parse_word. rewrite parse_fold by (apply words_nodup || exact K). unfold value_of.
  destruct (aget w level_words); [reflexivity|]. rewrite Z.bits_0. reflexivity.
Qed.
Lemma value_bit w k : (0 <= k < 8)%Z -> Z.testbit (value_of w) k = true <-> w = str "all" \/ w = word_of k.
Proof.
  intros K. assert (In k [0; 1; 2; 3; 4; 5; 6; 7]%Z) as Ik by (cbn; lia). clear K.
  unfold value_of. split.
  - intros H. destruct (aget w level_words) as [v|] eqn:G; [|rewrite Z.bits_0 in H; discriminate].
    apply aget_in in G. unfold level_words in G. cbn [In] in G.
    repeat (destruct G as [G|G]; [injection G as <- <-; repeat (destruct Ik as [<-|Ik]; [vm_compute in H; try discriminate H; first [left; reflexivity|right; reflexivity]|]); contradiction|]).
    contradiction.
  - intros H. cbn [In] in Ik. repeat (destruct Ik as [<-|Ik]; [destruct H as [-> | -> ]; vm_compute; reflexivity|]). contradiction.
Qed.
Lemma parse_lemma ws k : (0 <= k < 8)%Z -> Z.testbit (parse_levels ws) k = true <-> In (str "all") ws \/ In (word_of k) ws.
Proof.
  intros K. unfold parse_levels. assert (forall m, Z.testbit (fold_left parse_word ws m) k = true <-> Z.testbit m k = true \/ In (str "all") ws \/ In (word_of k) ws) as H.
  { induction ws as [|w ws IH]; intros m; cbn [fold_left In]; [intuition|]. rewrite IH, parse_word_bit, orb_true_iff, value_bit by exact K.
    intuition; subst; auto. }
  rewrite H, Z.bits_0. intuition discriminate.
Qed.
Lemma parse_range ws : is_filter (parse_levels ws).
Proof.
  unfold parse_levels. assert (is_filter 0) as H by (unfold is_filter; lia). revert H. generalize 0%Z.
  induction ws as [|w ws IH]; intros m H; [exact H|]. apply IH. unfold parse_word. revert m H. generalize level_words. intros l.
  induction l as [|p l IHl]; intros m H; [exact H|]. cbn [fold_left]. apply IHl. destruct (eqb _ _); [apply to_char_range|exact H].
Qed.
Lemma filter_cases (P : Z -> Prop) (d : forall m, {P m} + {~ P m}) :
  forallb (fun n => if d (Z.of_nat n - 128)%Z then true else false) (seq 0 256) = true -> forall m, is_filter m -> P m.
Proof.
  intros F m M. rewrite forallb_forall in F. unfold is_filter in M. specialize (F (Z.to_nat (m + 128))).
  rewrite Z2Nat.id in F by lia. replace (m + 128 - 128)%Z with m in F by lia.
  destruct (d m) as [p|]; [exact p|]. discriminate F. apply in_seq. lia.
Qed.
Lemma array_round m : is_filter m -> parse_levels (levels_to_array m) = m.
Proof. apply (filter_cases (fun m => parse_levels (levels_to_array m) = m) (fun m => Z.eq_dec _ _)). vm_compute. reflexivity. Qed.
Lemma words_all m : is_filter m -> m <> 0%Z -> parse_levels (levels_to_words m) = (-1)%Z.
Proof.
  intros F N. cut (m = 0%Z \/ parse_levels (levels_to_words m) = (-1)%Z); [tauto|]. revert m F N. intros m F _. revert m F.
  apply (filter_cases (fun m => m = 0%Z \/ parse_levels (levels_to_words m) = (-1)%Z)
    (fun m => match Z.eq_dec m 0 with left p => left (or_introl p) | right n => match Z.eq_dec (parse_levels (levels_to_words m)) (-1) with left p => left (or_intror p) | right q => right (fun H => match H with or_introl a => n a | or_intror b => q b end) end end)).
  vm_compute. reflexivity.
Qed.

(** ** File names *)
Lemma split_last (c : Z) (x y a b : list Z) : ~ In c a -> ~ In c b -> x ++ c :: a = y ++ c :: b -> x = y /\ a = b.
Proof.
  intros A B E. apply (f_equal (@rev Z)) in E. rewrite !rev_app_distr in E. cbn [rev] in E. rewrite <- !app_assoc in E. cbn [app] in E.
  apply split_at in E as [E1 E2]; [|intros H; apply in_rev in H; contradiction|intros H; apply in_rev in H; contradiction].
  apply (f_equal (@rev Z)) in E1, E2. rewrite !rev_involutive in E1, E2. auto.
Qed.
Lemma name_pid a b u v d e st su : (0 <= id_pid a < 10 ^ 19)%Z -> (0 <= id_pid b < 10 ^ 19)%Z ->
  log_name a u d st = log_name b v e su -> id_pid a = id_pid b.
Proof.
  intros A B E. unfold log_name in E. rewrite !app_assoc in E. apply app_inv_tail in E.
  rewrite <- (app_assoc _ (str "_") (long_text (id_pid a))), <- (app_assoc _ (str "_") (long_text (id_pid b))) in E.
  change (str "_") with [95%Z] in E. cbn [app] in E.
  apply split_last in E as [_ E]; [apply long_text_inj; assumption| |];
    apply digit_not; try apply long_text_spec; try assumption; lia.
Qed.

(** ** Entries of a file *)
Lemma file_lemma me u ops0 s0 tr0 c d stamp ms s tr : log_run me ops0 (log0 u) = (s0, tr0) -> sk_mask (lc_file c) <> 0%Z ->
  Forall (fun m => is_level (fst (fst m)) /\ snd (fst m) <> [] /\ (0 <= snd m)%Z /\
                   plain_entry (entry_of me (unit_after u ops0) (snd m) (fst (fst m)) (snd (fst m)))) ms ->
  log_run me (LStart c (Some d) stamp true :: logs ms) s0 = (s, tr) ->
  exists name content keep, aget name (lo_files s) = Some content /\
    (forall m, In m ms -> keep m = true <-> enabled (sk_mask (lc_file c)) (fst (fst m))) /\
    lines content = map (fun m => line_of (entry_of me (unit_after u ops0) (snd m) (fst (fst m)) (snd (fst m)))) (filter keep ms).
Proof.
  intros R N F R'. assert (Forall (fun op => match op with LStart _ _ _ _ => False | _ => True end) (logs ms)) as G.
  { unfold logs. apply Forall_forall. intros op H. apply in_map_iff in H as (m & <- & _). exact I. }
  pose proof (content_lemma me u ops0 s0 tr0 c d stamp (logs ms) s tr R N G R') as Q.
  exists (log_name me (unit_after u ops0) d stamp), (flat_map (fun l => l ++ [10%Z]) (filed tr)), (fun m => negb (Z.land (fst (fst m)) (sk_mask (lc_file c)) =? 0)%Z).
  split; [exact Q|]. split.
  { intros m Hm. apply enabled_spec. rewrite Forall_forall in F. apply F in Hm. apply Hm. }
  assert (filed tr = map (fun m => line_of (entry_of me (unit_after u ops0) (snd m) (fst (fst m)) (snd (fst m))))
    (filter (fun m => negb (Z.land (fst (fst m)) (sk_mask (lc_file c)) =? 0)%Z) ms)) as ->.
  { cbn [log_run log_step] in R'. pose proof (unit_run me u ops0 s0 tr0 R) as U.
    assert (lo_unit (log_start me c (Some d) stamp true s0) = unit_after u ops0 /\ lo_created (log_start me c (Some d) stamp true s0) = true /\
            lo_handle (log_start me c (Some d) stamp true s0) = Some (log_name me (lo_unit s0) d stamp) /\
            lo_file (log_start me c (Some d) stamp true s0) = sk_mask (lc_file c)) as (U1 & C1 & H1 & M1).
    { unfold log_start. cbv zeta. unfold filter_of. apply Z.eqb_neq in N. rewrite N. cbn. auto. }
    set (s1 := log_start me c (Some d) stamp true s0) in *. clearbody s1. destruct (log_run me (logs ms) s1) as [s2 e2] eqn:R2. injection R' as <- <-.
    cbn [app]. pose proof (filed_logs me (sk_mask (lc_file c)) _ ms s1 C1 H1 M1) as FL. rewrite R2, U1 in FL. apply FL.
    eapply Forall_impl; [|exact F]. cbn beta. intros m (A1 & A2 & A3 & A4). split; [exact A1|]. split; [exact A2|]. split; [exact A3|].
    apply line_plain. exact A4. }
  apply lines_of. apply Forall_forall. intros l H. apply in_map_iff in H as (m & <- & H). apply filter_In in H as [H _].
  rewrite Forall_forall in F. apply F in H. apply line_plain. apply H.
Qed.

(** ** Runs *)
Definition run_me : ident := Ident (str "h") 1 (str "p").
Lemma disabled_run : exists me u c d stamp l msg t, sk_enable (lc_con c) = false /\
    snd (log_run me [LStart c d stamp true; LLog l msg t] (log0 u)) = [EConsole msg].
Proof. exists run_me, [], (LCfg (Sink false 1) (Sink false 0) (Sink false 0) false), None, [], 1%Z, (str "m"), 0%Z. split; reflexivity. Qed.
Definition run_cfg : lcfg := LCfg (Sink true 0) (Sink true 1) (Sink true 0) false.
Lemma forged_run : exists me u c d stamp ms ms' n x, length ms = 1%nat /\ length ms' = 2%nat /\
    aget n (lo_files (fst (log_run me (LStart c (Some d) stamp true :: logs ms) (log0 u)))) = Some x /\
    aget n (lo_files (fst (log_run me (LStart c (Some d) stamp true :: logs ms') (log0 u)))) = Some x.
Proof.
  exists run_me, [], run_cfg, [], [], [(1%Z, str "a" ++ [10%Z] ++ str "0 ms | h |  | 1 | info | b", 0%Z)], [(1%Z, str "a", 0%Z); (1%Z, str "b", 0%Z)].
  eexists (str "__1.log"), _. split; [reflexivity|]. split; [reflexivity|]. split; vm_compute; reflexivity.
Qed.
Lemma zero_run : exists me u c d stamp t l m1 m2 n x, m1 <> m2 /\ enabled (sk_mask (lc_file c)) l /\
    aget n (lo_files (fst (log_run me (LStart c (Some d) stamp true :: logs [(l, m1, t)]) (log0 u)))) = Some x /\
    aget n (lo_files (fst (log_run me (LStart c (Some d) stamp true :: logs [(l, m2, t)]) (log0 u)))) = Some x.
Proof.
  exists run_me, [], run_cfg, [], [], 0%Z, 1%Z, (str "a" ++ [0%Z] ++ str "b"), (str "a"). eexists (str "__1.log"), _.
  split; [discriminate|]. split; [exists 0%Z; split; [lia|split; reflexivity]|]. split; vm_compute; reflexivity.
Qed.

Lemma empty_message_lemma me u ops s tr l t : log_run me ops (log0 u) = (s, tr) -> log_step me (LLog l [] t) s = (s, []).
Proof. intros _. cbn [log_step]. unfold log_do. rewrite orb_true_r. reflexivity. Qed.
