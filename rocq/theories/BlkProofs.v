(** Proofs about blocking calls. *)
From Verif Require Import Base Sample PbModel PbSpec SerModel SerSpec SerProofs SrvSpec BlkModel BlkSpec.

Arguments de_response : simpl never.
Arguments ser_response : simpl never.
Arguments say_executed : simpl never.
Arguments str : simpl never.
Arguments Nat.eqb : simpl never.

Definition rest (svc : list target) (ops : list bop) : list target := fold_left (fun l op => match op with BIssue _ => tl l | _ => l end) ops svc.
Definition sess (ses : list text) (ops : list bop) : list text := fold_left (fun l op => match op with BSession k => k :: l | _ => l end) ops ses.
Lemma called_nil host ops : forall ses, called host [] ses ops = [].
Proof. induction ops as [|op ops IH]; intros ses; [reflexivity|]. destruct op; cbn; auto. Qed.
Lemma called_snoc host op ops : forall svc ses, called host svc ses (ops ++ [op]) = called host svc ses ops ++ called host (rest svc ops) (sess ses ops) [op].
Proof.
  induction ops as [|o ops IH]; intros svc ses; [reflexivity|]. destruct o; cbn [app called]; try apply IH.
  destruct svc as [|t svc].
  - cbn. unfold rest. cbn. fold (rest [] ops). assert (R : rest [] ops = []).
    { clear. induction ops as [|o ops IH]; [reflexivity|]. unfold rest in *. cbn. destruct o; exact IH. }
    rewrite R. destruct op; try reflexivity. 
  - rewrite IH, <- app_assoc. reflexivity.
Qed.
Lemma rest_snoc svc ops op : rest svc (ops ++ [op]) = match op with BIssue _ => tl (rest svc ops) | _ => rest svc ops end.
Proof. unfold rest. rewrite fold_left_app. reflexivity. Qed.
Lemma sess_snoc ses ops op : sess ses (ops ++ [op]) = match op with BSession k => k :: sess ses ops | _ => sess ses ops end.
Proof. unfold sess. rewrite fold_left_app. reflexivity. Qed.

Definition stops (op : bop) : bool := match op with BWake | BTimeout => true | _ => false end.
Definition returned (ops : list bop) : bool := existsb stops ops.
Lemma until_snoc ops op : until_return (ops ++ [op]) = until_return ops ++ (if returned ops then [] else if stops op then [] else [op]).
Proof.
  induction ops as [|o ops IH]; [destruct op; reflexivity|]. cbn [app until_return returned existsb].
  destruct o; cbn [stops orb app]; try (rewrite IH; reflexivity); reflexivity.
Qed.
Lemma returned_snoc ops op : returned (ops ++ [op]) = (returned ops || stops op)%bool.
Proof. unfold returned. rewrite existsb_app. cbn. rewrite orb_false_r. reflexivity. Qed.
Lemma answer_app a b i : answer_of (a ++ b) i = match answer_of a i with Some x => Some x | None => answer_of b i end.
Proof. induction a as [|o a IH]; [reflexivity|]. destruct o; cbn; try apply IH. destruct (Nat.eqb i0 i); [reflexivity|apply IH]. Qed.
Lemma answer_until ops i : answer_of ops i = None -> answer_of (until_return ops) i = None.
Proof.
  induction ops as [|o ops IH]; [reflexivity|]. destruct o; cbn; auto. destruct (Nat.eqb i0 i); [discriminate|auto].
Qed.
Definition is_some {A} (o : option A) : bool := match o with Some _ => true | None => false end.

Lemma nth_upd {A} (l : list A) : forall i j x, nth_error (upd i x l) j = if Nat.eqb j i then option_map (fun _ => x) (nth_error l j) else nth_error l j.
Proof.
  induction l as [|y l IH]; intros i j x.
  - destruct j; cbn; destruct (Nat.eqb _ i); reflexivity.
  - destruct i as [|i], j as [|j]; cbn; try reflexivity. rewrite IH. reflexivity.
Qed.
Lemma upd_length {A} (l : list A) : forall i x, length (upd i x l) = length l.
Proof. induction l as [|y l IH]; intros [|i] x; cbn; auto. Qed.
Lemma filter_length_le {A} (f : A -> bool) l : length (filter f l) <= length l.
Proof. induction l as [|x l IH]; cbn; [lia|]. destruct (f x); cbn; lia. Qed.
Definition closed (l : list bentry) : nat := length (filter (fun e => negb (be_open e)) l).
Lemma closed_upd (l : list bentry) : forall i b r e, nth_error l i = Some (BEntry b r true) -> be_open e = false -> closed (upd i e l) = S (closed l).
Proof.
  unfold closed. induction l as [|y l IH]; intros [|i] b r e G Q; try discriminate; cbn in G.
  - injection G as ->. cbn. rewrite Q. reflexivity.
  - cbn. specialize (IH i b r e G Q). destruct (negb (be_open y)); cbn; rewrite IH; reflexivity.
Qed.

Lemma step_outcome method p a r : r = outcome method p None -> take_answer a r = outcome method p (Some a).
Proof.
  intros ->. destruct p as [t ok]. destruct a as [e|bs]; cbn; [reflexivity|]. unfold from_bytes. destruct (de_response bs); cbn; try reflexivity.
  destruct (h_state (rp_header a) =? 1)%Z; [reflexivity|]. destruct (h_state (rp_header a) =? 2)%Z; reflexivity.
Qed.

Section call.
Context (host method : text) (timed : bool) (svc : list target) (ses : list text).
Definition entry_at (ops : list bop) (i : nat) (p : target * bool) : bentry :=
  BEntry (is_some (in_time ops i)) (outcome method p (in_time ops i)) (snd p && negb (is_some (answer_of ops i)))%bool.
Record BI (ops : list bop) (s : blk) : Prop := {
  b_todo : bk_todo s = rest svc ops;
  b_ses : bk_sessions s = sess ses ops;
  b_ent : forall i, nth_error (bk_entries s) i = option_map (entry_at ops i) (nth_error (called host svc ses ops) i);
  b_len : length (bk_entries s) = length (called host svc ses ops);
  b_new : forall i, answer_of ops i <> None -> i < length (called host svc ses ops);
  b_exp : bk_expected s = length (bk_entries s);
  b_fin : bk_finished s = closed (bk_entries s);
  b_blk : bk_block s = returned ops;
  b_ret : if returned ops then bk_todo s = [] /\ bk_ret s = Some (map (fun e => (be_back e, be_resp e)) (bk_entries s)) else bk_ret s = None }.

Lemma called_id ops op : (match op with BIssue _ => False | _ => True end) -> called host svc ses (ops ++ [op]) = called host svc ses ops.
Proof. intros H. rewrite called_snoc. destruct op; try contradiction; cbn; apply app_nil_r. Qed.
Lemma entry_same ops op i p : (match op with BAnswer j _ => j <> i | _ => True end) -> entry_at (ops ++ [op]) i p = entry_at ops i p.
Proof.
  intros H. unfold entry_at, in_time. rewrite until_snoc, !answer_app.
  assert (A : answer_of [op] i = None) by (destruct op; try reflexivity; cbn; replace (Nat.eqb i0 i) with false by (symmetry; apply Nat.eqb_neq; exact H); reflexivity).
  rewrite A. assert (B : answer_of (if returned ops then [] else if stops op then [] else [op]) i = None) by (destruct (returned ops); [reflexivity|destruct (stops op); [reflexivity|exact A]]).
  rewrite B. destruct (answer_of (until_return ops) i), (answer_of ops i); reflexivity.
Qed.
Lemma map_same_back (l l' : list bentry) : length l = length l' -> (forall i e e', nth_error l i = Some e -> nth_error l' i = Some e' -> be_back e = be_back e' /\ be_resp e = be_resp e') ->
  map (fun e => (be_back e, be_resp e)) l = map (fun e => (be_back e, be_resp e)) l'.
Proof.
  revert l'. induction l as [|x l IH]; intros [|y l'] L H; try discriminate; [reflexivity|]. cbn. destruct (H 0 x y eq_refl eq_refl) as [-> ->]. f_equal.
  apply IH; [cbn in L; lia|]. intros i e e' A B. apply (H (S i)); assumption.
Qed.

Lemma BI_step ops s op s' : BI ops s -> b_step host method timed op s = Some s' -> BI (ops ++ [op]) s'.
Proof.
  intros [T S E L N X F K R] G. destruct op as [ok|k|i a| |]; cbn [b_step] in G.
  - destruct (bk_todo s) as [|t todo] eqn:Q; [discriminate|].
    assert (Rt : returned ops = false) by (destruct (returned ops); [destruct R; discriminate|reflexivity]).
    assert (C : called host svc ses (ops ++ [BIssue ok]) = called host svc ses ops ++
       (if (wanted host t && existsb (eqb (tg_key t)) (bk_sessions s))%bool then [(t, ok)] else [])).
    { rewrite called_snoc, <- T, <- S. cbn [called]. rewrite app_nil_r. reflexivity. }
    assert (Wd : match host with [] => true | _ :: _ => eqb host (tg_host t) end = wanted host t) by reflexivity. rewrite Wd in G. clear Wd.
    destruct (wanted host t && existsb (eqb (tg_key t)) (bk_sessions s))%bool; injection G as <-.
    + constructor; cbn [bk_todo bk_sessions bk_entries bk_expected bk_finished bk_block bk_ret]; rewrite ?rest_snoc, ?sess_snoc, ?C, ?returned_snoc, ?Rt, ?orb_false_r; cbn [stops orb].
      * rewrite <- T. reflexivity.
      * exact S.
      * intros i. destruct (Nat.lt_ge_cases i (length (bk_entries s))) as [Hi|Hi].
        -- rewrite !nth_error_app1 by lia. rewrite E. destruct (nth_error (called host svc ses ops) i); cbn; [|reflexivity].
           rewrite entry_same by exact I. reflexivity.
        -- rewrite !nth_error_app2 by lia. rewrite L. destruct (i - length (called host svc ses ops)) as [|d] eqn:D; cbn; [|destruct d; reflexivity].
           rewrite entry_same by exact I. assert (A : answer_of ops i = None).
           { destruct (answer_of ops i) eqn:A; [|reflexivity]. specialize (N i ltac:(congruence)). lia. }
           unfold entry_at, in_time. rewrite (answer_until _ _ A), A. cbn. rewrite andb_true_r. destruct ok; reflexivity.
      * rewrite !app_length. cbn. lia.
      * intros i. rewrite answer_app, app_length. cbn [answer_of]. intros H. specialize (N i). destruct (answer_of ops i); [|congruence]. specialize (N ltac:(discriminate)). lia.
      * rewrite app_length. cbn. lia.
      * unfold closed in *. rewrite filter_app, app_length. cbn. destruct ok; cbn; lia.
      * congruence.
      * rewrite Rt in R. exact R.
    + rewrite app_nil_r in C. constructor; cbn [bk_todo bk_sessions bk_entries bk_expected bk_finished bk_block bk_ret]; rewrite ?rest_snoc, ?sess_snoc, ?C, ?returned_snoc, ?Rt, ?orb_false_r; cbn [stops orb]; try assumption.
      * rewrite <- T. reflexivity.
      * intros i. rewrite E. destruct (nth_error (called host svc ses ops) i); cbn; [|reflexivity]. rewrite entry_same by exact I. reflexivity.
      * intros i. rewrite answer_app. cbn [answer_of]. intros H. apply N. destruct (answer_of ops i); congruence.
      * congruence.
      * rewrite Rt in R. exact R.
  - injection G as <-. constructor; cbn [bk_todo bk_sessions bk_entries bk_expected bk_finished bk_block bk_ret]; rewrite ?rest_snoc, ?sess_snoc, ?called_id, ?returned_snoc, ?orb_false_r by exact I; cbn [stops orb]; rewrite ?orb_false_r; try assumption.
    + congruence.
    + intros i. rewrite E. destruct (nth_error (called host svc ses ops) i); cbn; [|reflexivity]. rewrite entry_same by exact I. reflexivity.
    + intros i. rewrite answer_app. cbn [answer_of]. intros H. apply N. destruct (answer_of ops i); congruence.
  - destruct (nth_error (bk_entries s) i) as [[b r o]|] eqn:Q; [|discriminate]. destruct o; [|discriminate]. injection G as <-.
    pose proof (E i) as Ei. rewrite Q in Ei. destruct (nth_error (called host svc ses ops) i) as [p|] eqn:Cp; [|discriminate]. cbn in Ei. injection Ei as Eb Er Eo.
    symmetry in Eo. apply andb_prop in Eo. destruct Eo as [Eo1 Eo2]. assert (A : answer_of ops i = None) by (destruct (answer_of ops i); [discriminate|reflexivity]).
    pose proof (answer_until _ _ A) as A2.
    set (e := if bk_block s then BEntry b r false else BEntry true (take_answer a r) false).
    assert (Eop : be_open e = false) by (unfold e; destruct (bk_block s); reflexivity).
    constructor; cbn [bk_todo bk_sessions bk_entries bk_expected bk_finished bk_block bk_ret]; rewrite ?rest_snoc, ?sess_snoc, ?called_id, ?returned_snoc, ?orb_false_r by exact I; cbn [stops orb]; rewrite ?orb_false_r; try assumption.
    + intros j. rewrite nth_upd. destruct (Nat.eqb j i) eqn:B.
      * apply Nat.eqb_eq in B. subst j. rewrite Q, Cp. cbn [option_map]. f_equal. unfold entry_at, in_time. rewrite until_snoc, !answer_app, A, A2. cbn [stops].
        cbn [answer_of]. rewrite Nat.eqb_refl. cbn [is_some negb]. rewrite andb_false_r. unfold e. rewrite K. destruct (returned ops).
        -- cbn [answer_of is_some]. rewrite Eb, Er. unfold in_time. rewrite A2. reflexivity.
        -- cbn [answer_of]. rewrite Nat.eqb_refl. cbn [is_some]. f_equal. apply step_outcome. rewrite Er. unfold in_time. rewrite A2. reflexivity.
      * rewrite E. destruct (nth_error (called host svc ses ops) j); cbn; [|reflexivity]. rewrite entry_same; [reflexivity|]. apply Nat.eqb_neq in B. congruence.
    + rewrite upd_length. exact L.
    + intros j. rewrite answer_app. cbn [answer_of]. destruct (answer_of ops j) eqn:Aj; [intros _; apply N; congruence|].
      destruct (Nat.eqb i j) eqn:B; [|congruence]. intros _. apply Nat.eqb_eq in B. subst j. apply nth_error_Some. congruence.
    + rewrite upd_length. exact X.
    + rewrite (closed_upd _ _ _ _ _ Q Eop). congruence.
    + destruct (returned ops); [|exact R]. destruct R as [R1 R2]. split; [exact R1|]. rewrite R2. f_equal. apply map_same_back; [rewrite upd_length; reflexivity|].
      intros j e1 e2 H1 H2. rewrite nth_upd in H2. destruct (Nat.eqb j i) eqn:B; [|rewrite H1 in H2; injection H2 as <-; auto].
      apply Nat.eqb_eq in B. subst j. rewrite Q in *. cbn in H2. injection H1 as <-. injection H2 as <-. unfold e. rewrite K. auto.
  - destruct (bk_todo s) as [|t todo] eqn:Q; [|discriminate]. destruct (bk_ret s) eqn:Rs; [discriminate|].
    destruct (Nat.eqb (bk_expected s) (bk_finished s)) eqn:Ef; [|discriminate]. injection G as <-. unfold b_finish.
    constructor; cbn [bk_todo bk_sessions bk_entries bk_expected bk_finished bk_block bk_ret]; rewrite ?rest_snoc, ?sess_snoc, ?called_id, ?returned_snoc, ?orb_true_r by exact I; cbn [stops orb]; rewrite ?orb_true_r; try assumption; auto.
    + congruence.
    + intros i. rewrite E. destruct (nth_error (called host svc ses ops) i); cbn; [|reflexivity]. rewrite entry_same by exact I. reflexivity.
    + intros i. rewrite answer_app. cbn [answer_of]. intros H. apply N. destruct (answer_of ops i); congruence.
  - destruct (bk_todo s) as [|t todo] eqn:Q; [|discriminate]. destruct (bk_ret s) eqn:Rs; [discriminate|].
    destruct timed; [|discriminate]. injection G as <-. unfold b_finish.
    constructor; cbn [bk_todo bk_sessions bk_entries bk_expected bk_finished bk_block bk_ret]; rewrite ?rest_snoc, ?sess_snoc, ?called_id, ?returned_snoc, ?orb_true_r by exact I; cbn [stops orb]; rewrite ?orb_true_r; try assumption; auto.
    + congruence.
    + intros i. rewrite E. destruct (nth_error (called host svc ses ops) i); cbn; [|reflexivity]. rewrite entry_same by exact I. reflexivity.
    + intros i. rewrite answer_app. cbn [answer_of]. intros H. apply N. destruct (answer_of ops i); congruence.
Qed.

Lemma b_run_app a : forall b s s2, b_run host method timed (a ++ b) s = Some s2 -> exists s1, b_run host method timed a s = Some s1 /\ b_run host method timed b s1 = Some s2.
Proof.
  induction a as [|op a IH]; intros b s s2 E; [exists s; auto|]. cbn in *. destruct (b_step host method timed op s) as [s1|]; [|discriminate]. apply IH, E.
Qed.
Lemma BI_run ops : forall s, b_run host method timed ops (blk0 svc ses) = Some s -> BI ops s.
Proof.
  induction ops as [|op ops IH] using rev_ind; intros s E.
  - cbn in E. injection E as <-. constructor; cbn; auto; try congruence. intros [|i]; reflexivity.
  - apply b_run_app in E. destruct E as (s1 & A & B). cbn in B. destruct (b_step host method timed op s1) as [s2|] eqn:G; [|discriminate].
    injection B as <-. eapply BI_step; eauto.
Qed.

(** The result of call number i. *)
Fixpoint outcomes (i : nat) (l : list (target * bool)) (ops : list bop) : list (bool * sresp) :=
  match l with
  | [] => []
  | p :: l' => (is_some (in_time ops i), outcome method p (in_time ops i)) :: outcomes (S i) l' ops
  end.
Lemma outcomes_nth ops l : forall i j, nth_error (outcomes i l ops) j = option_map (fun p => (is_some (in_time ops (i + j)), outcome method p (in_time ops (i + j)))) (nth_error l j).
Proof.
  induction l as [|p l IH]; intros i [|j]; cbn [outcomes nth_error option_map]; try reflexivity.
  - rewrite Nat.add_0_r. reflexivity.
  - rewrite IH. replace (S i + j) with (i + S j) by lia. reflexivity.
Qed.
Lemma nth_ext_opt {A} (l : list A) : forall l', (forall i, nth_error l i = nth_error l' i) -> l = l'.
Proof.
  induction l as [|x l IH]; intros [|y l'] H; try (specialize (H 0); discriminate); [reflexivity|].
  pose proof (H 0) as H0. injection H0 as ->. f_equal. apply IH. intros i. apply (H (S i)).
Qed.
Lemma result_lemma ops s res : b_run host method timed ops (blk0 svc ses) = Some s -> bk_ret s = Some res -> res = outcomes 0 (called host svc ses ops) ops.
Proof.
  intros E Q. destruct (BI_run _ _ E) as [T S En L N X F K R]. destruct (returned ops); [|congruence]. destruct R as [_ R]. rewrite R in Q. injection Q as <-.
  apply nth_ext_opt. intros i. rewrite outcomes_nth, nth_error_map, En. destruct (nth_error (called host svc ses ops) i); reflexivity.
Qed.
Lemma closed_all (l : list bentry) : closed l = length l -> forall i e, nth_error l i = Some e -> be_open e = false.
Proof.
  unfold closed. induction l as [|x l IH]; intros H [|i] e G; try discriminate; cbn in G.
  - injection G as ->. cbn in H. destruct (be_open e); [|reflexivity]. cbn in H. pose proof (filter_length_le (fun e => negb (be_open e)) l). lia.
  - apply (IH ltac:(cbn in H; destruct (negb (be_open x)); cbn in H; [lia|pose proof (filter_length_le (fun e => negb (be_open e)) l); lia]) i e G).
Qed.
Lemma all_closed (l : list bentry) : (forall e, In e l -> be_open e = false) -> closed l = length l.
Proof. unfold closed. induction l as [|x l IH]; intros H; [reflexivity|]. cbn. rewrite (H x (or_introl eq_refl)). cbn. rewrite IH; [reflexivity|]. intros e G. apply H. right. exact G. Qed.

(** Waiting ends early only if every server has answered. *)
Lemma wake_lemma ops s s' : b_run host method timed ops (blk0 svc ses) = Some s -> b_step host method timed BWake s = Some s' ->
  forall i t, nth_error (called host svc ses ops) i = Some (t, true) -> in_time ops i <> None.
Proof.
  intros E G i t C. destruct (BI_run _ _ E) as [T S En L N X F K R]. cbn in G. destruct (bk_todo s); [|discriminate]. destruct (bk_ret s) eqn:Q; [discriminate|].
  destruct (Nat.eqb (bk_expected s) (bk_finished s)) eqn:Ef; [|discriminate]. apply Nat.eqb_eq in Ef.
  assert (Rt : returned ops = false) by (destruct (returned ops); [destruct R; discriminate|reflexivity]).
  specialize (En i). rewrite C in En. cbn in En. pose proof (closed_all (bk_entries s) ltac:(congruence) i _ En) as O. cbn in O.
  unfold in_time. assert (U : until_return ops = ops).
  { clear -Rt. induction ops as [|o ops IH]; [reflexivity|]. cbn in Rt. apply orb_false_iff in Rt. destruct Rt as [R1 R2]. destruct o; try discriminate; cbn; rewrite IH by exact R2; reflexivity. }
  rewrite U. destruct (answer_of ops i); discriminate.
Qed.
(** ... and it can end then. *)
Lemma can_wake_lemma ops s : b_run host method timed ops (blk0 svc ses) = Some s -> bk_ret s = None -> bk_todo s = [] ->
  (forall i t, nth_error (called host svc ses ops) i = Some (t, true) -> answer_of ops i <> None) ->
  b_step host method timed BWake s <> None.
Proof.
  intros E Q Td H. destruct (BI_run _ _ E) as [T S En L N X F K R]. cbn. rewrite Q, Td.
  replace (Nat.eqb (bk_expected s) (bk_finished s)) with true; [discriminate|]. symmetry. apply Nat.eqb_eq. rewrite X, F. symmetry. apply all_closed.
  intros e G. apply In_nth_error in G. destruct G as [i G]. rewrite En in G. destruct (nth_error (called host svc ses ops) i) as [[t ok]|] eqn:C; [|discriminate].
  cbn in G. injection G as <-. cbn. destruct ok; [|reflexivity]. specialize (H i t C). destruct (answer_of ops i); [reflexivity|congruence].
Qed.
Lemma issue_lemma s ok : bk_todo s <> [] -> b_step host method timed (BIssue ok) s <> None.
Proof. cbn. destruct (bk_todo s); [congruence|]. destruct (_ && _)%bool; discriminate. Qed.
(** Every accepted call can be answered. *)
Lemma answer_lemma ops s i t a : b_run host method timed ops (blk0 svc ses) = Some s -> nth_error (called host svc ses ops) i = Some (t, true) -> answer_of ops i = None ->
  b_step host method timed (BAnswer i a) s <> None.
Proof.
  intros E C A. destruct (BI_run _ _ E) as [T S En L N X F K R]. cbn. rewrite En, C. cbn. unfold entry_at. rewrite A. cbn. discriminate.
Qed.
(** Without new sessions the call goes to all matching services with a session. *)
Lemma called_all ops s : b_run host method timed ops (blk0 svc ses) = Some s -> bk_todo s = [] -> (forall k, ~ In (BSession k) ops) ->
  map fst (called host svc ses ops) = filter (fun t => (wanted host t && existsb (eqb (tg_key t)) ses)%bool) svc.
Proof.
  intros E Td H. destruct (BI_run _ _ E) as [T _ _ _ _ _ _ _ _]. rewrite Td in T. clear E. revert T H. generalize svc. induction ops as [|o ops IH]; intros l T H.
  - unfold rest in T. cbn in T. subst l. reflexivity.
  - assert (H' : forall k, ~ In (BSession k) ops) by (intros k G; apply (H k); right; exact G).
    destruct o; cbn [called].
    + destruct l as [|t l]; [reflexivity|]. unfold rest in T. cbn in T. rewrite map_app, (IH l T H'). cbn [filter]. destruct (wanted host t && existsb (eqb (tg_key t)) ses)%bool; reflexivity.
    + destruct (H k). left. reflexivity.
    + apply IH; assumption.
    + apply IH; assumption.
    + apply IH; assumption.
Qed.
Lemma todo_done ops s : b_run host method timed ops (blk0 svc ses) = Some s -> bk_ret s <> None -> bk_todo s = [].
Proof. intros E Q. destruct (BI_run _ _ E) as [_ _ _ _ _ _ _ _ R]. destruct (returned ops); [apply R|congruence]. Qed.
(** Later answers change nothing. *)
Lemma later_lemma ops ops' s s' res : b_run host method timed ops (blk0 svc ses) = Some s -> bk_ret s = Some res ->
  b_run host method timed ops' s = Some s' -> bk_ret s' = Some res.
Proof.
  intros _ Q. revert s Q. induction ops' as [|op ops' IH]; intros s Q E; [cbn in E; injection E as <-; exact Q|].
  cbn in E. destruct (b_step host method timed op s) as [s1|] eqn:G; [|discriminate]. apply (IH s1); [|exact E].
  destruct op as [ok|k|i a| |]; cbn [b_step] in G.
  - destruct (bk_todo s); [discriminate|]. destruct (_ && _)%bool; injection G as <-; exact Q.
  - injection G as <-. exact Q.
  - destruct (nth_error (bk_entries s) i) as [[b r o]|]; [|discriminate]. destruct o; [|discriminate]. injection G as <-. exact Q.
  - destruct (bk_todo s); [|discriminate]. rewrite Q in G. discriminate.
  - destruct (bk_todo s); [|discriminate]. rewrite Q in G. discriminate.
Qed.
End call.

(** ** The theorems *)
Lemma call_lemma host method timed svc ses ops s res : b_run host method timed ops (blk0 svc ses) = Some s -> bk_ret s = Some res ->
  length res = length (called host svc ses ops) /\
  forall i p, nth_error (called host svc ses ops) i = Some p ->
    nth_error res i = Some (match in_time ops i with Some _ => true | None => false end, outcome method p (in_time ops i)).
Proof.
  intros E Q. rewrite (result_lemma host method timed svc ses ops s res E Q). split.
  - generalize 0. induction (called host svc ses ops) as [|p l IH]; intros n; cbn; [reflexivity|]. rewrite IH. reflexivity.
  - intros i p C. rewrite outcomes_nth, C. reflexivity.
Qed.
Lemma targets_lemma host method timed svc ses ops s : b_run host method timed ops (blk0 svc ses) = Some s -> bk_ret s <> None -> (forall k, ~ In (BSession k) ops) ->
  map fst (called host svc ses ops) = filter (fun t => (wanted host t && existsb (eqb (tg_key t)) ses)%bool) svc.
Proof. intros E Q H. eapply called_all; eauto. eapply todo_done; eauto. Qed.
Lemma success_lemma host method timed svc ses ops s res : b_run host method timed ops (blk0 svc ses) = Some s -> bk_ret s = Some res ->
  (snd (call_vec timed res) = true <-> exists i p, nth_error (called host svc ses ops) i = Some p /\ executed (outcome method p (in_time ops i))) /\
  snd (call_cb timed res) = snd (call_vec timed res).
Proof.
  intros E Q. split; [|reflexivity]. destruct (call_lemma _ _ _ _ _ _ _ _ E Q) as [L H]. cbn [call_vec snd]. rewrite existsb_exists. split.
  - intros (x & G & X). apply In_nth_error in G. destruct G as [i G]. destruct (nth_error (called host svc ses ops) i) as [p|] eqn:C.
    + specialize (H i p C). rewrite G in H. injection H as ->. exists i, p. split; [exact C|]. apply Z.eqb_eq, X.
    + apply nth_error_None in C. assert (nth_error res i <> None) by congruence. apply nth_error_Some in H0. lia.
  - intros (i & p & C & X). specialize (H i p C). exists (match in_time ops i with Some _ => true | None => false end, outcome method p (in_time ops i)).
    split; [eapply nth_error_In; exact H|]. apply Z.eqb_eq. exact X.
Qed.
Lemma executed_lemma method p a : executed (outcome method p a) <-> exists bs r, a = Some (ABytes bs) /\ de_response bs = Ok r /\ h_state (rp_header r) = 1%Z.
Proof.
  unfold executed. destruct p as [t ok]. destruct a as [[e|bs]|]; cbn.
  - split; [discriminate|]. intros (? & ? & H & _). discriminate.
  - destruct (de_response bs) as [r| |] eqn:D; cbn.
    + destruct (Z.eqb_spec (h_state (rp_header r)) 1) as [Q|Q].
      * split; [intros _; exists bs, r; auto|reflexivity].
      * split; [discriminate|]. intros (? & ? & H & D' & X). injection H as <-. rewrite D in D'. injection D' as <-. congruence.
    + split; [discriminate|]. intros (? & ? & H & D' & X). injection H as <-. congruence.
    + split; [discriminate|]. intros (? & ? & H & D' & X). injection H as <-. congruence.
  - split; [discriminate|]. intros (? & ? & H & _). discriminate.
Qed.
Lemma int32_id z : i32 z -> int32 z = z.
Proof.
  unfold i32, int32. intros H. destruct (Z_lt_le_dec z 0) as [L|L].
  - rewrite <- (Z_mod_plus_full z 1 (2 ^ 32)). rewrite Z.mod_small by lia. destruct (Z.ltb_spec (z + 1 * 2 ^ 32) (2 ^ 31)); lia.
  - rewrite Z.mod_small by lia. destruct (Z.ltb_spec z (2 ^ 31)); lia.
Qed.
(** What a server of SrvModel answers. *)
Lemma own_answer host name id m resp ret method p : i32 ret -> let r := say_executed host name id m resp ret in (len (ser_response r) < 2 ^ 32)%Z ->
  outcome method p (Some (ABytes (ser_response r))) = SResp host name id m [] ret 1 resp.
Proof.
  intros I r L. destruct p as [t ok]. unfold outcome. rewrite (response_rt r) by (try exact L; unfold wf_response, wf_header, r, say_executed; cbn [rp_header rp_ret h_id h_state head]; unfold i32, u32, i64 in *; lia).
  unfold r, say_executed. cbn. rewrite int32_id by exact I. reflexivity.
Qed.
Lemma timeouts_lemma timed res : snd (fst (call_vec timed res)) = (if timed then length (filter (fun p => negb (fst p)) res) else 0) /\
  snd (fst (call_cb timed res)) = snd (fst (call_vec timed res)).
Proof. split; reflexivity. Qed.
Lemma stopped_timeout : exists s res, b_run [] (str "m") true [BIssue false; BWake] (blk0 [Target (str "k") (str "h") (str "srv")] [str "k"]) = Some s /\
  bk_ret s = Some res /\ called [] [Target (str "k") (str "h") (str "srv")] [str "k"] [BIssue false; BWake] = [(Target (str "k") (str "h") (str "srv"), false)] /\
  snd (fst (call_vec true res)) = 1.
Proof. do 2 eexists. split; [vm_compute; reflexivity|]. split; [reflexivity|]. split; vm_compute; reflexivity. Qed.

Lemma callback_lemma host method timed svc ses ops s res : b_run host method timed ops (blk0 svc ses) = Some s -> bk_ret s = Some res ->
  fst (fst (call_cb timed res)) = answers_in_time method ops 0 (called host svc ses ops) /\
  fst (fst (call_vec timed res)) = map snd res /\
  snd (fst (call_cb timed res)) = (if timed then without_answer ops 0 (called host svc ses ops) else 0) /\
  snd (fst (call_vec timed res)) = (if timed then without_answer ops 0 (called host svc ses ops) else 0).
Proof.
  intros E Q. rewrite (result_lemma host method timed svc ses ops s res E Q). cbn [call_cb call_vec fst snd].
  assert (forall l n, map snd (filter fst (outcomes method n l ops)) = answers_in_time method ops n l /\
            length (filter (fun p => negb (fst p)) (outcomes method n l ops)) = without_answer ops n l) as H.
  { induction l as [|p l IH]; intros n; [split; reflexivity|]. destruct (IH (S n)) as [A B]. cbn [outcomes answers_in_time without_answer].
    destruct (in_time ops n); cbn [is_some filter fst negb map snd app length]; rewrite A, B; split; reflexivity. }
  destruct (H (called host svc ses ops) 0) as [A B]. rewrite A, B. auto.
Qed.
