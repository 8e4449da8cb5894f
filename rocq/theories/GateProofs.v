(** Proofs for the gates. *)
From Verif Require Import Base Sample RegModel WrModel RdModel PbModel PbSpec SerModel SerSpec SerProofs GateModel GateSpec.

(** ** The table *)
Lemma run_snoc l x g : gt_run (l ++ [x]) g = gt_step (gt_run l g) x.
Proof. unfold gt_run. now rewrite fold_left_app. Qed.
Lemma on_running l : gt_on (gt_run l gate0) = true <-> running l.
Proof.
  induction l as [|x l IH] using rev_ind.
  - cbn. split; [discriminate|]. intros (a & b & E & _). destruct a; discriminate.
  - rewrite run_snoc. 
    assert (K : x <> GStop -> x <> GStart -> (running (l ++ [x]) <-> running l)).
    { intros N1 N2. split.
      - intros (a & b & E & N). destruct b as [|y b] using rev_ind.
        + apply app_inj_tail in E as [_ E]. congruence.
        + clear IHb. rewrite app_comm_cons, app_assoc in E. apply app_inj_tail in E as [-> ->].
          exists a, b. split; [reflexivity|]. intros H. apply N. apply in_or_app. now left.
      - intros (a & b & -> & N). exists a, (b ++ [x]). split; [now rewrite <- app_assoc|].
        intros H. apply in_app_or in H as [H|[H|[]]]; [tauto|]. congruence. }
    destruct x as [| |n o|n o]; cbn [gt_step].
    + unfold gt_start. split.
      * intros _. exists l, []. split; [reflexivity|]. intros [].
      * intros _. destruct (gt_on (gt_run l gate0)) eqn:E; [exact E|reflexivity].
    + unfold gt_stop. split.
      * destruct (gt_on (gt_run l gate0)) eqn:E; cbn [fst gt_on]; [discriminate|congruence].
      * intros (a & b & E & N). exfalso. destruct b as [|y b] using rev_ind.
        -- apply app_inj_tail in E as [_ E]. discriminate.
        -- rewrite app_comm_cons, app_assoc in E. apply app_inj_tail in E as [_ <-]. apply N. apply in_or_app. right. now left.
    + rewrite K by discriminate. rewrite <- IH. unfold gt_register. destruct (gt_on (gt_run l gate0)) eqn:E; cbn [fst gt_on]; [tauto|]. now rewrite E.
    + rewrite K by discriminate. rewrite <- IH. unfold gt_unregister. destruct (gt_on (gt_run l gate0)) eqn:E; [|cbn [fst]; now rewrite E].
      destruct (erase1 n o _). cbn [fst gt_on]. tauto.
Qed.
Lemma in_erase1 n o l x : In x (fst (erase1 n o l)) -> In x l.
Proof.
  induction l as [|e l IH]; cbn [erase1]; [auto|]. destruct (eqb e (n, o)); [intros H; now right|].
  destruct (erase1 n o l) as [r b]. cbn [fst] in *. intros [->|H]; [now left|right; now apply IH].
Qed.
Lemma erase1_nodup n o l : NoDup (map snd l) -> NoDup (map snd (fst (erase1 n o l))).
Proof.
  induction l as [|e l IH]; cbn [erase1]; [auto|]. intros N. inversion N; subst. destruct (eqb e (n, o)); [assumption|].
  pose proof (in_erase1 n o l) as I. destruct (erase1 n o l) as [r b]. cbn [fst] in *. cbn [map]. constructor; [|auto].
  intros H. apply H1. apply in_map_iff in H as (x & E & Hx). apply in_map_iff. exists x. split; [exact E|auto].
Qed.
Lemma erase1_in n o l x : NoDup (map snd l) -> (In x (fst (erase1 n o l)) <-> In x l /\ x <> (n, o)).
Proof.
  induction l as [|e l IH]; cbn [erase1]; [cbn; tauto|]. intros N. inversion N as [|? ? N1 N2]; subst. destruct (eqb e (n, o)) eqn:E.
  - apply eqb_true in E. subst e. cbn [fst]. split.
    + intros H. split; [now right|]. intros ->. apply N1. apply in_map_iff. exists (n, o). now split.
    + intros [[H|H] X]; [congruence|exact H].
  - apply eqb_false in E. specialize (IH N2). destruct (erase1 n o l) as [r b]. cbn [fst] in *. cbn [In]. rewrite IH. split.
    + intros [->|[H X]]; [split; [now left|congruence]|tauto].
    + intros [[->|H] X]; tauto.
Qed.
Lemma registered_app a b : registered (a ++ b) = registered a ++ registered b.
Proof. apply flat_map_app. Qed.
Lemma once_app a b : once (a ++ b) -> once a.
Proof. unfold once. rewrite registered_app. apply nodup_app_l. Qed.
Lemma map_registered l : forall x, In x (gt_map (gt_run l gate0)) -> In (snd x) (registered l).
Proof.
  induction l as [|y l IH] using rev_ind; intros x; [intros []|]. rewrite run_snoc, registered_app. intros H. apply in_or_app.
  destruct y as [| |n o|n o]; cbn [gt_step] in H.
  - left. apply IH. unfold gt_start in H. destruct (gt_on _); exact H.
  - left. apply IH. unfold gt_stop in H. destruct (gt_on _); [destruct H|exact H].
  - unfold gt_register in H. destruct (gt_on _); cbn [fst gt_map] in H; [|left; now apply IH].
    apply in_app_or in H as [H|[<-|[]]]; [left; now apply IH|right; now left].
  - left. apply IH. unfold gt_unregister in H. destruct (gt_on _); [|exact H]. pose proof (in_erase1 n o (gt_map (gt_run l gate0)) x) as E.
    destruct (erase1 n o _). cbn [fst gt_map] in *. auto.
Qed.
Lemma map_nodup l : once l -> NoDup (map snd (gt_map (gt_run l gate0))).
Proof.
  induction l as [|y l IH] using rev_ind; intros O; [constructor|]. pose proof (once_app _ _ O) as O'. specialize (IH O'). rewrite run_snoc.
  destruct y as [| |n o|n o]; cbn [gt_step].
  - unfold gt_start. destruct (gt_on _); exact IH.
  - unfold gt_stop. destruct (gt_on _); [constructor|exact IH].
  - unfold gt_register. destruct (gt_on _); [|exact IH]. cbn [fst gt_map]. rewrite map_app. cbn [map]. apply nodup_snoc; [exact IH|].
    intros H. apply in_map_iff in H as (x & E & Hx). apply map_registered in Hx. unfold once in O. rewrite registered_app in O. cbn in O.
    apply NoDup_remove_2 in O. apply O. rewrite app_nil_r. cbn in E. now rewrite <- E.
  - unfold gt_unregister. destruct (gt_on _); [|exact IH]. pose proof (erase1_nodup n o _ IH). destruct (erase1 n o _). exact H.
Qed.
Lemma holds_snoc n o l x : x <> GStop -> x <> GUnregister n o -> x <> GRegister n o -> (holds n o (l ++ [x]) <-> holds n o l).
Proof.
  intros N1 N2 N3. split.
  - intros (a & b & E & R & U & S). destruct b as [|y b] using rev_ind; [apply app_inj_tail in E as [_ E]; congruence|]. clear IHb.
    rewrite app_comm_cons, app_assoc in E. apply app_inj_tail in E as [-> ->]. exists a, b. split; [reflexivity|]. split; [exact R|].
    split; intros H; [apply U|apply S]; apply in_or_app; now left.
  - intros (a & b & -> & R & U & S). exists a, (b ++ [x]). split; [now rewrite <- app_assoc|]. split; [exact R|].
    split; intros H; apply in_app_or in H as [H|[H|[]]]; congruence || tauto.
Qed.
Lemma no_holds_last n o l x : x = GStop \/ x = GUnregister n o -> ~ holds n o (l ++ [x]).
Proof.
  intros X (a & b & E & R & U & S). destruct b as [|y b] using rev_ind; [apply app_inj_tail in E as [_ E]; destruct X; congruence|]. clear IHb.
  rewrite app_comm_cons, app_assoc in E. apply app_inj_tail in E as [_ ->].
  destruct X as [-> | ->]; [apply S|apply U]; apply in_or_app; right; now left.
Qed.
Lemma in_map_holds l : once l -> forall n o, In (n, o) (gt_map (gt_run l gate0)) <-> holds n o l.
Proof.
  induction l as [|y l IH] using rev_ind; intros O n o.
  { cbn. split; [intros []|]. intros (a & b & E & _). destruct a; discriminate. }
  pose proof (once_app _ _ O) as O'. specialize (IH O'). rewrite run_snoc.
  destruct y as [| |n' o'|n' o']; cbn [gt_step].
  - rewrite holds_snoc by discriminate. rewrite <- IH. unfold gt_start. destruct (gt_on _); tauto.
  - split; [|intros H; exfalso; revert H; apply no_holds_last; now left].
    unfold gt_stop. destruct (gt_on (gt_run l gate0)) eqn:E; cbn [fst gt_map]; [intros []|]. intros H. exfalso.
    apply IH in H. destruct H as (a & b & E' & R & _ & S).
    assert (running l) as Rl. { destruct R as (a1 & a2 & -> & N). exists a1, (a2 ++ GRegister n o :: b). split; [subst; now rewrite <- app_assoc|].
      intros H. apply in_app_or in H as [H|[H|H]]; [tauto|discriminate|tauto]. }
    apply on_running in Rl. congruence.
  - unfold gt_register. destruct (gt_on (gt_run l gate0)) eqn:E; cbn [fst gt_map].
    + rewrite in_app_iff. cbn [In]. rewrite IH. apply on_running in E.
      destruct (eq_dec (n', o') (n, o)) as [Q|Q].
      * injection Q as -> ->. split; [|intros _; right; now left]. intros _. exists l, []. split; [reflexivity|]. split; [exact E|]. split; intros [].
      * rewrite holds_snoc by congruence. split; [intros [H|[H|[]]]; [exact H|congruence]|tauto].
    + destruct (eq_dec (n', o') (n, o)) as [Q|Q].
      * injection Q as -> ->. split.
        -- intros H. exfalso. apply IH in H as (a & b & -> & _). unfold once in O. rewrite !registered_app in O. cbn [registered flat_map app] in O.
           apply NoDup_remove_2 in O. apply O. rewrite app_nil_r. apply in_or_app. right. now left.
        -- intros (a & b & E' & R & U & S). exfalso. destruct b as [|y b] using rev_ind.
           ++ apply app_inj_tail in E' as [-> _]. apply on_running in R. congruence.
           ++ clear IHb. rewrite app_comm_cons, app_assoc in E'. apply app_inj_tail in E' as [-> <-].
              unfold once in O. rewrite !registered_app in O. cbn [registered flat_map app] in O.
              apply NoDup_remove_2 in O. apply O. rewrite app_nil_r. apply in_or_app. right. now left.
      * rewrite holds_snoc by congruence. now rewrite <- IH.
  - unfold gt_unregister. destruct (gt_on (gt_run l gate0)) eqn:E.
    + pose proof (erase1_in n' o' (gt_map (gt_run l gate0)) (n, o) (map_nodup l O')) as X. destruct (erase1 n' o' _) as [r b]. cbn [fst gt_map] in *. rewrite X.
      destruct (eq_dec (n', o') (n, o)) as [Q|Q].
      * injection Q as -> ->. split; [tauto|]. intros H. exfalso. revert H. apply no_holds_last. now right.
      * rewrite holds_snoc by congruence. rewrite IH. split; [tauto|]. intros H. split; [exact H|congruence].
    + cbn [fst]. destruct (eq_dec (n', o') (n, o)) as [Q|Q].
      * injection Q as -> ->. split; [|intros H; exfalso; revert H; apply no_holds_last; now right].
        intros H. exfalso. apply IH in H as (a & b & E' & R & _ & S).
        assert (running l) as Rl. { destruct R as (a1 & a2 & -> & N). exists a1, (a2 ++ GRegister n o :: b). split; [subst; now rewrite <- app_assoc|].
          intros H. apply in_app_or in H as [H|[H|H]]; [tauto|discriminate|tauto]. }
        apply on_running in Rl. congruence.
      * rewrite holds_snoc by congruence. now rewrite <- IH.
Qed.
Lemma range_holds l n o : once l -> In o (gt_range n (gt_run l gate0)) <-> holds n o l.
Proof.
  intros O. rewrite <- (in_map_holds l O n o). unfold gt_range. rewrite in_map_iff. split.
  - intros ([n' o'] & E & H). cbn in E. subst o'. apply filter_In in H as [H E]. cbn in E. apply eqb_true in E. now subst.
  - intros H. exists (n, o). split; [reflexivity|]. apply filter_In. split; [exact H|apply eqb_refl].
Qed.
Lemma range_nodup l n : once l -> NoDup (gt_range n (gt_run l gate0)).
Proof.
  intros O. unfold gt_range. apply map_nodup in O. revert O. generalize (gt_map (gt_run l gate0)) as m. induction m as [|e m IH]; cbn; [auto|].
  intros N. inversion N; subst. destruct (eqb (fst e) n); [|auto]. cbn [map]. constructor; [|auto].
  intros H. apply H1. apply in_map_iff in H as (x & E & Hx). apply filter_In in Hx as [Hx _]. apply in_map_iff. eauto.
Qed.
Lemma all_holds l o : once l -> In o (gt_all (gt_run l gate0)) <-> exists n, holds n o l.
Proof.
  intros O. unfold gt_all. destruct (gt_on (gt_run l gate0)) eqn:E.
  - rewrite in_map_iff. split.
    + intros ([n o'] & X & H). cbn in X. subst. exists n. now apply (in_map_holds l O).
    + intros [n H]. apply (in_map_holds l O) in H. exists (n, o). now split.
  - split; [intros []|]. intros (n & a & b & -> & R & _ & S). exfalso.
    assert (running (a ++ GRegister n o :: b)) as Rl. { destruct R as (a1 & a2 & -> & N). exists a1, (a2 ++ GRegister n o :: b). split; [now rewrite <- app_assoc|].
      intros H. apply in_app_or in H as [H|[H|H]]; [tauto|discriminate|tauto]. }
    apply on_running in Rl. congruence.
Qed.
Lemma all_nodup l : once l -> NoDup (gt_all (gt_run l gate0)).
Proof. intros O. unfold gt_all. destruct (gt_on _); [now apply map_nodup|constructor]. Qed.
Lemma holds_running n o l : holds n o l -> gt_on (gt_run l gate0) = true.
Proof.
  intros (a & b & -> & R & _ & S). apply on_running. destruct R as (a1 & a2 & -> & N). exists a1, (a2 ++ GRegister n o :: b).
  split; [now rewrite <- app_assoc|]. intros H. apply in_app_or in H as [H|[H|H]]; [tauto|discriminate|tauto].
Qed.

(** ** Registrations *)
Lemma layers_acc l a : let r := fold_left add_layer l a in
  (sl_udp r = true <-> sl_udp a = true \/ exists y, In y l /\ ly_type y = tl_udp /\ (ly_enabled y = true \/ (ly_version y < 2)%Z)) /\
  (sl_shm r = true <-> sl_shm a = true \/ exists y, In y l /\ ly_type y = tl_shm /\ (ly_enabled y = true \/ (ly_version y < 2)%Z)) /\
  (sl_tcp r = true <-> sl_tcp a = true \/ exists y, In y l /\ ly_type y = tl_tcp /\ (ly_enabled y = true \/ (ly_version y < 2)%Z)).
Proof.
  revert a. induction l as [|y l IH]; intros a; cbv zeta.
  { cbn. repeat split; auto; intros [H|(y & [] & _)]; exact H. }
  cbn [fold_left]. specialize (IH (add_layer a y)). cbv zeta in IH.
  assert (K : forall t, (exists z, In z (y :: l) /\ ly_type z = t /\ (ly_enabled z = true \/ (ly_version z < 2)%Z)) <->
    ((ly_type y = t /\ (ly_enabled y = true \/ (ly_version y < 2)%Z)) \/ exists z, In z l /\ ly_type z = t /\ (ly_enabled z = true \/ (ly_version z < 2)%Z))).
  { intros t. split; [intros (z & [->|H] & X); eauto|]. intros [H|(z & H & X)]; [exists y|exists z]; split; auto; [now left|now right]. }
  rewrite !K. destruct IH as (I1 & I2 & I3). rewrite I1, I2, I3.
  assert (E : (ly_enabled y || (ly_version y <? 2)%Z)%bool = true <-> ly_enabled y = true \/ (ly_version y < 2)%Z) by (rewrite orb_true_iff, Z.ltb_lt; tauto).
  unfold add_layer. destruct (ly_enabled y || (ly_version y <? 2)%Z)%bool.
  - assert (ly_enabled y = true \/ (ly_version y < 2)%Z) as Q by now apply E.
    destruct (ly_type y); cbn [sl_udp sl_shm sl_tcp]; repeat split; intuition congruence.
  - assert (~ (ly_enabled y = true \/ (ly_version y < 2)%Z)) as Q by (intros H; apply E in H; discriminate). tauto.
Qed.
Lemma layers_ok s : layers_are s (layers_of s).
Proof.
  pose proof (layers_acc (tp_layers (sm_topic s)) (SubLayers false false false)) as (A & B & C). cbv zeta in *. cbn [sl_udp sl_shm sl_tcp] in *.
  unfold layers_are, layers_of, able. rewrite A, B, C. repeat split; intros H; (destruct H as [H|H]; [discriminate|exact H]) || now right.
Qed.
Lemma confirmed_ok host s : confirmed host s = true <-> is_confirmed host s.
Proof.
  unfold confirmed, is_confirmed. rewrite orb_true_iff, !andb_true_iff, negb_true_iff, !Z.ltb_lt.
  destruct (eqb (sm_host s) host) eqn:E; [apply eqb_true in E|apply eqb_false in E]; intuition congruence.
Qed.
Lemma exactly_range {A} n l (f : nat -> list A) : once l ->
  exactly_for (fun w => holds n w l) f (flat_map f (gt_range n (gt_run l gate0))).
Proof. intros O. exists (gt_range n (gt_run l gate0)). split; [now apply range_nodup|]. split; [intros w; now apply range_holds|reflexivity]. Qed.
Lemma exactly_off {A} n l (f : nat -> list A) : gt_on (gt_run l gate0) = false -> exactly_for (fun w => holds n w l) f [].
Proof. intros E. exists []. split; [constructor|]. split; [|reflexivity]. intros w. split; [intros []|]. intros H. apply holds_running in H. congruence. Qed.
Lemma flat_single {A} (f : nat -> A) l : map f l = flat_map (fun x => [f x]) l.
Proof. induction l as [|x l IH]; [reflexivity|]. cbn. now rewrite IH. Qed.
Lemma is_nil_false {A} (l : list A) : l <> [] -> is_nil l = false.
Proof. destruct l; [congruence|reflexivity]. Qed.
Lemma map_flat {A B} (g : A -> B) (f : nat -> list A) l : map g (flat_map f l) = flat_map (fun x => map g (f x)) l.
Proof. induction l as [|x l IH]; [reflexivity|]. cbn. now rewrite map_app, IH. Qed.

Lemma arrive_sub a host s pl sl : once pl -> fst (ap_apply a s) = true -> sm_cmd s = bct_reg_subscriber -> tp_tname (sm_topic s) <> [] ->
  exactly_for (fun w => holds (tp_tname (sm_topic s)) w pl)
    (fun w => [GP (PSub w (info_of s) (tp_dtype (sm_topic s)) (layers_of s))]) (arrive a host s (gt_run pl gate0) (gt_run sl gate0)).
Proof.
  intros O A C N. unfold arrive. rewrite A. unfold gates, gates_apply. rewrite C. unfold pg_sub. rewrite (is_nil_false _ N), orb_false_r.
  destruct (gt_on (gt_run pl gate0)) eqn:E; cbn [negb]; [|now apply exactly_off].
  rewrite map_map, flat_single. now apply exactly_range.
Qed.
Lemma arrive_unsub a host s pl sl : once pl -> fst (ap_apply a s) = true -> sm_cmd s = bct_unreg_subscriber -> tp_tname (sm_topic s) <> [] ->
  exactly_for (fun w => holds (tp_tname (sm_topic s)) w pl)
    (fun w => [GP (PUnsub w (info_of s))]) (arrive a host s (gt_run pl gate0) (gt_run sl gate0)).
Proof.
  intros O A C N. unfold arrive. rewrite A. unfold gates, gates_apply. rewrite C. unfold pg_unsub. rewrite (is_nil_false _ N), orb_false_r.
  destruct (gt_on (gt_run pl gate0)) eqn:E; cbn [negb]; [|now apply exactly_off].
  rewrite map_map, flat_single. now apply exactly_range.
Qed.
Lemma arrive_unpub a host s pl sl : once sl -> fst (ap_apply a s) = true -> sm_cmd s = bct_unreg_publisher -> tp_tname (sm_topic s) <> [] ->
  exactly_for (fun r => holds (tp_tname (sm_topic s)) r sl)
    (fun r => [GS (SUnpub r (info_of s))]) (arrive a host s (gt_run pl gate0) (gt_run sl gate0)).
Proof.
  intros O A C N. unfold arrive. rewrite A. unfold gates, gates_apply. rewrite C. unfold sg_unpub. rewrite (is_nil_false _ N), orb_false_r.
  destruct (gt_on (gt_run sl gate0)) eqn:E; cbn [negb]; [|now apply exactly_off].
  rewrite map_map, flat_single. now apply exactly_range.
Qed.
Lemma arrive_pub a host s pl sl : once sl -> fst (ap_apply a s) = true -> sm_cmd s = bct_reg_publisher -> tp_tname (sm_topic s) <> [] ->
  exists known : bool, (known = true <-> is_confirmed host s) /\
  exactly_for (fun r => holds (tp_tname (sm_topic s)) r sl)
    (fun r => map (fun y => GS (SPar r (info_of s) y)) (tp_layers (sm_topic s)) ++
              (if known then [GS (SPub r (info_of s) (tp_dtype (sm_topic s)) (layers_of s))] else []))
    (arrive a host s (gt_run pl gate0) (gt_run sl gate0)).
Proof.
  intros O A C N. exists (confirmed host s). split; [apply confirmed_ok|].
  unfold arrive. rewrite A. unfold gates, gates_apply. rewrite C. unfold sg_pub. rewrite (is_nil_false _ N), orb_false_r.
  destruct (gt_on (gt_run sl gate0)) eqn:E; cbn [negb]; [|now apply exactly_off].
  rewrite map_flat. destruct (exactly_range (tp_tname (sm_topic s)) sl (fun r => map GS (sg_pub1 host s r)) O) as (ws & A1 & A2 & A3).
  exists ws. split; [exact A1|]. split; [exact A2|]. rewrite A3. apply flat_map_ext. intros r. unfold sg_pub1. rewrite map_app, map_map. f_equal.
  now destruct (confirmed host s).
Qed.
Lemma arrive_none a host s pg sg :
  fst (ap_apply a s) = false \/ (is_pub_cmd (sm_cmd s) = false /\ is_sub_cmd (sm_cmd s) = false) \/ tp_tname (sm_topic s) = [] ->
  arrive a host s pg sg = [].
Proof.
  intros H. unfold arrive. destruct (fst (ap_apply a s)); [|reflexivity]. destruct H as [H|[[H1 H2]|H]]; [discriminate| |].
  - unfold gates, gates_apply. destruct (sm_cmd s); cbn in *; congruence.
  - unfold gates, gates_apply, pg_sub, pg_unsub, sg_pub, sg_unpub. rewrite H. cbn [is_nil]. rewrite !orb_true_r. destruct (sm_cmd s); reflexivity.
Qed.

(** ** Deliveries *)
Lemma sy_app a b s : sy_run (a ++ b) s = let (s1, o1) := sy_run a s in let (s2, o2) := sy_run b s1 in (s2, o1 ++ o2).
Proof.
  revert s. induction a as [|x a IH]; intros s; cbn [app sy_run]; [now destruct (sy_run b s)|].
  destruct (sy_step s x) as [s1 o]. rewrite IH. destruct (sy_run a s1) as [s2 o2]. destruct (sy_run b s2) as [s3 o3]. reflexivity.
Qed.
Lemma final_snoc l x : final (l ++ [x]) = fst (sy_step (final l) x).
Proof.
  unfold final. rewrite sy_app. destruct (sy_run l sys0) as [s1 o1]. cbn [fst sy_run]. now destruct (sy_step s1 x).
Qed.
Lemma run_length l s : length (snd (sy_run l s)) = length l.
Proof.
  revert s. induction l as [|x l IH]; intros s; [reflexivity|]. cbn [sy_run]. destruct (sy_step s x) as [s1 o]. specialize (IH s1).
  destruct (sy_run l s1) as [s2 o2]. cbn [snd length] in *. now rewrite IH.
Qed.
Lemma combine_app {A B} (a : list A) (b : list B) c d : length a = length b -> combine (a ++ c) (b ++ d) = combine a b ++ combine c d.
Proof. revert b. induction a as [|x a IH]; intros [|y b] E; try discriminate; [reflexivity|]. cbn. now rewrite IH by (cbn in E; lia). Qed.
Definition offers1 (th : nat) (x : sop) (out : list (nat * list rout)) : list nat :=
  match x with OApply t => if Nat.eqb t th then map fst out else [] | _ => [] end.
Lemma offered_snoc th l x : offered th (l ++ [x]) = offered th l ++ offers1 th x (snd (sy_step (final l) x)).
Proof.
  unfold offered, final. rewrite sy_app. pose proof (run_length l sys0) as L. destruct (sy_run l sys0) as [s1 o1]. cbn [fst snd sy_run] in *.
  destruct (sy_step s1 x) as [s2 o2]. cbn [snd]. rewrite combine_app by lia. rewrite flat_map_app. cbn [combine flat_map fst snd]. now rewrite app_nil_r.
Qed.
Lemma gate_step s x : sy_gate (fst (sy_step s x)) = match x with OGate y => gt_step (sy_gate s) y | _ => sy_gate s end.
Proof.
  destruct x as [y|r c|r o|th n m|th]; cbn [sy_step].
  - reflexivity.
  - destruct (aget r (sy_readers s)); reflexivity.
  - destruct (aget r (sy_readers s)) as [[c x]|]; [|reflexivity]. destruct o; try reflexivity;
      match goal with |- context [rd_step ?c ?o ?x] => destruct (rd_step c o x); reflexivity end.
  - destruct (aget th (sy_del s)); [reflexivity|]. destruct (gt_on (sy_gate s)); reflexivity.
  - destruct (aget th (sy_del s)) as [[m [|r todo] done]|]; try reflexivity. destruct (aget r (sy_readers s)) as [[c x]|]; [|reflexivity].
    destruct (rd_apply c m x). reflexivity.
Qed.
Lemma gate_ops_app a b : gate_ops (a ++ b) = gate_ops a ++ gate_ops b.
Proof. apply flat_map_app. Qed.
Lemma final_gate l : sy_gate (final l) = gt_run (gate_ops l) gate0.
Proof.
  induction l as [|x l IH] using rev_ind; [reflexivity|]. rewrite final_snoc, gate_step, gate_ops_app. destruct x; cbn [gate_ops flat_map]; rewrite ?app_nil_r; try exact IH.
  cbn [app]. rewrite run_snoc. now rewrite IH.
Qed.
(** What the table of deliveries does in a step. *)
Lemma del_step s x th : aget th (sy_del (fst (sy_step s x))) =
  match x with
  | OTake t n m => if Nat.eqb t th then match aget th (sy_del s) with
                                        | Some d => Some d
                                        | None => if gt_on (sy_gate s) then Some (Delivery m (gt_range n (sy_gate s)) []) else None
                                        end
                   else aget th (sy_del s)
  | OApply t => if Nat.eqb t th then match aget th (sy_del s) with
                                     | Some (Delivery m (r :: todo) done) =>
                                         match aget r (sy_readers s) with
                                         | Some (c, x) => Some (Delivery m todo (done ++ [(r, returned (snd (rd_apply c m x)))]))
                                         | None => aget th (sy_del s)
                                         end
                                     | y => y
                                     end
                else aget th (sy_del s)
  | _ => aget th (sy_del s)
  end.
Proof.
  destruct x as [y|r c|r o|t n m|t]; cbn [sy_step].
  - reflexivity.
  - destruct (aget r (sy_readers s)); reflexivity.
  - destruct (aget r (sy_readers s)) as [[c x]|]; [|reflexivity]. destruct o; try reflexivity;
      match goal with |- context [rd_step ?c ?o ?x] => destruct (rd_step c o x); reflexivity end.
  - destruct (Nat.eqb_spec t th) as [->|N].
    + destruct (aget th (sy_del s)) eqn:E; [exact E|]. destruct (gt_on (sy_gate s)); [|exact E]. cbn [fst sy_del]. now rewrite aget_aset_same.
    + destruct (aget t (sy_del s)); [reflexivity|]. destruct (gt_on (sy_gate s)); [|reflexivity]. cbn [fst sy_del]. now rewrite aget_aset_other by congruence.
  - destruct (Nat.eqb_spec t th) as [->|N].
    + destruct (aget th (sy_del s)) as [[m [|r todo] done]|] eqn:E; try exact E. destruct (aget r (sy_readers s)) as [[c x]|]; [|exact E].
      destruct (rd_apply c m x) as [x' out]. cbn [fst snd sy_del]. now rewrite aget_aset_same.
    + destruct (aget t (sy_del s)) as [[m [|r todo] done]|] eqn:E; try reflexivity. destruct (aget r (sy_readers s)) as [[c x]|]; [|reflexivity].
      destruct (rd_apply c m x) as [x' out]. cbn [fst snd sy_del]. now rewrite aget_aset_other by congruence.
Qed.
Lemma out_step s th : map fst (snd (sy_step s (OApply th))) =
  match aget th (sy_del s) with
  | Some (Delivery m (r :: todo) done) => match aget r (sy_readers s) with Some _ => [r] | None => [] end
  | _ => []
  end.
Proof.
  cbn [sy_step]. destruct (aget th (sy_del s)) as [[m [|r todo] done]|]; try reflexivity. destruct (aget r (sy_readers s)) as [[c x]|]; [|reflexivity].
  destruct (rd_apply c m x). reflexivity.
Qed.
Lemma no_delivery th l : aget th (sy_del (final l)) = None -> offered th l = [].
Proof.
  induction l as [|x l IH] using rev_ind; [reflexivity|]. rewrite final_snoc, del_step, offered_snoc. intros H.
  assert (N : aget th (sy_del (final l)) = None).
  { destruct x as [y|r c|r o|t n m|t]; try exact H.
    - destruct (Nat.eqb t th); [|exact H]. now destruct (aget th (sy_del (final l))).
    - destruct (Nat.eqb t th); [|exact H]. destruct (aget th (sy_del (final l))) as [[m [|r todo] done]|]; try discriminate; [|reflexivity].
      destruct (aget r (sy_readers (final l))) as [[c x]|]; discriminate. }
  rewrite (IH N). cbn [app]. destruct x as [y|r c|r o|t n m|t]; try reflexivity. cbn [offers1]. destruct (Nat.eqb_spec t th) as [->|]; [|reflexivity].
  rewrite out_step, N. reflexivity.
Qed.
Lemma delivery_inv th l m todo done : aget th (sy_del (final l)) = Some (Delivery m todo done) ->
  offered th l = map fst done /\
  exists a b n, l = a ++ OTake th n m :: b /\ gt_on (sy_gate (final a)) = true /\ map fst done ++ todo = gt_range n (sy_gate (final a)).
Proof.
  revert todo done. induction l as [|x l IH] using rev_ind; intros todo done; [discriminate|]. rewrite final_snoc, del_step, offered_snoc. intros H.
  assert (K : aget th (sy_del (final l)) = Some (Delivery m todo done) -> offers1 th x (snd (sy_step (final l) x)) = [] ->
    offered th l ++ offers1 th x (snd (sy_step (final l) x)) = map fst done /\
    exists a b n, l ++ [x] = a ++ OTake th n m :: b /\ gt_on (sy_gate (final a)) = true /\ map fst done ++ todo = gt_range n (sy_gate (final a))).
  { intros E N. destruct (IH _ _ E) as (A & a & b & n & E' & G & B). rewrite N, app_nil_r. split; [exact A|]. exists a, (b ++ [x]), n.
    split; [rewrite E'; now rewrite <- app_assoc|]. now split. }
  destruct x as [y|r c|r o|t n m'|t]; try (apply K; [exact H|reflexivity]).
  - destruct (Nat.eqb_spec t th) as [->|N]; [|apply K; [exact H|reflexivity]].
    destruct (aget th (sy_del (final l))) eqn:E; [apply K; [exact H|reflexivity]|].
    destruct (gt_on (sy_gate (final l))) eqn:G; [|discriminate]. injection H as <- <- <-. cbn [offers1 map app]. rewrite app_nil_r. split; [now apply no_delivery|].
    exists l, [], n. split; [reflexivity|]. split; [exact G|reflexivity].
  - cbn [offers1] in *. destruct (Nat.eqb_spec t th) as [->|N]; [|apply K; [exact H|reflexivity]].
    rewrite out_step in *. destruct (aget th (sy_del (final l))) as [[m0 [|r todo0] done0]|] eqn:E; [apply K; [exact H|reflexivity]| |discriminate].
    destruct (aget r (sy_readers (final l))) as [[c x]|] eqn:R; [|apply K; [exact H|reflexivity]].
    injection H as -> <- <-. destruct (IH _ _ eq_refl) as (A & a & b & n & E' & G & B). rewrite A. split; [now rewrite map_app|].
    exists a, (b ++ [OApply th]), n. split; [rewrite E'; now rewrite <- app_assoc|]. split; [exact G|]. rewrite map_app. cbn [map fst]. rewrite <- app_assoc. exact B.
Qed.
Lemma delivered_all th l m done : once (gate_ops l) -> aget th (sy_del (final l)) = Some (Delivery m [] done) ->
  NoDup (offered th l) /\ exists a b n, l = a ++ OTake th n m :: b /\ forall r, In r (offered th l) <-> holds n r (gate_ops a).
Proof.
  intros O E. destruct (delivery_inv _ _ _ _ _ E) as (A & a & b & n & E' & G & B). rewrite app_nil_r in B.
  assert (Oa : once (gate_ops a)) by (rewrite E', gate_ops_app in O; now apply once_app in O).
  rewrite A, B, final_gate. split; [now apply range_nodup|]. exists a, b, n. split; [exact E'|]. intros r. now apply range_holds.
Qed.
Lemma offered_only th l m todo done : once (gate_ops l) -> aget th (sy_del (final l)) = Some (Delivery m todo done) ->
  NoDup (offered th l) /\ exists a b n, l = a ++ OTake th n m :: b /\ forall r, In r (offered th l) -> holds n r (gate_ops a).
Proof.
  intros O E. destruct (delivery_inv _ _ _ _ _ E) as (A & a & b & n & E' & G & B).
  assert (Oa : once (gate_ops a)) by (rewrite E', gate_ops_app in O; now apply once_app in O).
  rewrite final_gate in B. pose proof (range_nodup _ n Oa) as N. rewrite <- B in N. rewrite A. split; [now apply nodup_app_l in N|].
  exists a, b, n. split; [exact E'|]. intros r H. apply (range_holds _ n r Oa). rewrite <- B. apply in_or_app. now left.
Qed.

(** Readers stay. *)
Lemma stop_reader_has l : forall r m, (exists v, aget r m = Some v) -> exists v, aget r (fold_left stop_reader l m) = Some v.
Proof.
  induction l as [|x l IH]; intros r m H; [exact H|]. cbn [fold_left]. apply IH. unfold stop_reader. destruct (aget x m) as [[c y]|] eqn:E; [|exact H].
  rewrite aget_aset. destruct (eqb r x); eauto.
Qed.
Lemma reader_has_step s x r : (exists v, aget r (sy_readers s) = Some v) -> exists v, aget r (sy_readers (fst (sy_step s x))) = Some v.
Proof.
  intros H. destruct x as [y|r' c|r' o|t n m|t]; cbn [sy_step].
  - destruct y; try exact H. cbn [fst sy_readers]. now apply stop_reader_has.
  - destruct (aget r' (sy_readers s)); [exact H|]. cbn [fst sy_readers]. rewrite aget_aset. destruct (eqb r r'); eauto.
  - destruct (aget r' (sy_readers s)) as [[c x]|]; [|exact H]. destruct o; try exact H;
      (match goal with |- context [rd_step ?c ?o ?x] => destruct (rd_step c o x); cbn [fst sy_readers]; rewrite aget_aset; destruct (eqb r r'); eauto end).
  - destruct (aget t (sy_del s)); [exact H|]. destruct (gt_on (sy_gate s)); exact H.
  - destruct (aget t (sy_del s)) as [[m [|r' todo] done]|]; try exact H. destruct (aget r' (sy_readers s)) as [[c x]|]; [|exact H].
    destruct (rd_apply c m x). cbn [fst sy_readers]. rewrite aget_aset. destruct (eqb r r'); eauto.
Qed.
Lemma created_has l r c : In (OCreate r c) l -> exists v, aget r (sy_readers (final l)) = Some v.
Proof.
  induction l as [|x l IH] using rev_ind; intros H; [destruct H|]. rewrite final_snoc. apply in_app_or in H as [H|[->|[]]]; [now apply reader_has_step, IH|].
  cbn [sy_step]. destruct (aget r (sy_readers (final l))) eqn:E; [eauto|]. cbn [fst sy_readers]. rewrite aget_aset_same. eauto.
Qed.
Lemma gate_ops_in n r l : In (GRegister n r) (gate_ops l) -> exists a b, l = a ++ OGate (GRegister n r) :: b.
Proof.
  induction l as [|x l IH]; cbn [gate_ops flat_map]; [intros []|]. intros H. apply in_app_or in H as [H|H].
  - destruct x as [y|?|?|?|?]; try destruct H as [].
    + subst y. now exists [], l.
    + destruct H.
  - destruct (IH H) as (a & b & ->). now exists (x :: a), b.
Qed.
Lemma range_registered n r l : In r (gt_range n (gt_run l gate0)) -> exists k, In (GRegister k r) l.
Proof.
  unfold gt_range. intros H. apply in_map_iff in H as (x & E & H). apply filter_In in H as [H _]. apply map_registered in H. rewrite E in H.
  unfold registered in H. apply in_flat_map in H as (y & Hy & H). destruct y; try destruct H; [subst; eauto|destruct H].
Qed.
Lemma constructed_app a b : constructed (a ++ b) -> constructed a.
Proof. intros C x y n r E. apply (C x (y ++ b) n r). rewrite E. now rewrite <- app_assoc. Qed.
Lemma range_created l a b n r : l = a ++ b -> constructed l -> In r (gt_range n (sy_gate (final a))) -> exists v, aget r (sy_readers (final l)) = Some v.
Proof.
  intros E C H. rewrite final_gate in H. apply range_registered in H as [k H]. apply gate_ops_in in H as (x & y & Ea).
  destruct (C x (y ++ b) k r) as [c I]. { rewrite E, Ea, <- app_assoc. reflexivity. }
  apply (created_has l r c). rewrite E, Ea. apply in_or_app. left. apply in_or_app. now left.
Qed.
Lemma finish th : forall k l m todo done, length todo = k -> constructed l -> aget th (sy_del (final l)) = Some (Delivery m todo done) ->
  exists done', aget th (sy_del (final (l ++ repeat (OApply th) k))) = Some (Delivery m [] done').
Proof.
  induction k as [|k IH]; intros l m todo done L C E.
  - destruct todo; [|discriminate]. cbn [repeat]. rewrite app_nil_r. eauto.
  - destruct todo as [|r todo]; [discriminate|]. cbn [repeat]. change (OApply th :: repeat (OApply th) k) with ([OApply th] ++ repeat (OApply th) k).
    rewrite app_assoc. destruct (delivery_inv _ _ _ _ _ E) as (A & a & b & n & E' & G & B).
    destruct (range_created l a (OTake th n m :: b) n r E' C) as [[c x] R]. { rewrite <- B. apply in_or_app. right. now left. }
    eapply (IH (l ++ [OApply th]) m todo); [cbn in L; lia| |].
    + intros x0 y n0 r0 X. destruct y as [|z y] using rev_ind; [apply app_inj_tail in X as [_ X]; discriminate|]. clear IHy.
      rewrite app_comm_cons, app_assoc in X. apply app_inj_tail in X as [X _]. now apply (C x0 y n0 r0).
    + rewrite final_snoc, del_step, Nat.eqb_refl, E, R. reflexivity.
Qed.
Lemma finished th l m todo done : constructed l -> aget th (sy_del (final l)) = Some (Delivery m todo done) ->
  exists done', aget th (sy_del (final (l ++ repeat (OApply th) (length todo)))) = Some (Delivery m [] done').
Proof. intros C E. now apply (finish th (length todo) l m todo done). Qed.

(** A reader that is stopped ignores what it is offered. *)
Lemma stopped_ignores c m x : rd_created x = false -> rd_apply c m x = (x, [ROReturn 0]).
Proof. intros E. unfold rd_apply. now rewrite E. Qed.

(** The result *)
Lemma last_in {A} (l : list A) d : l <> [] -> In (last l d) l.
Proof. induction l as [|x l IH]; [congruence|]. intros _. destruct l as [|y l]; [now left|]. right. apply IH. discriminate. Qed.
Lemma result_all d : dl_done d <> [] -> (forall r n, In (r, n) (dl_done d) -> 0 < n) -> result_of d = true.
Proof.
  intros N H. unfold result_of. apply Nat.ltb_lt. assert (map snd (dl_done d) <> []) as N' by (destruct (dl_done d); [congruence|discriminate]).
  pose proof (last_in _ 0 N') as L. apply in_map_iff in L as ([r n] & E & L). rewrite <- E. exact (H r n L).
Qed.
Lemma result_none d : (forall r n, In (r, n) (dl_done d) -> n = 0) -> result_of d = false.
Proof.
  intros H. unfold result_of. apply Nat.ltb_ge. destruct (map snd (dl_done d)) eqn:E; [reflexivity|].
  pose proof (last_in (map snd (dl_done d)) 0 ltac:(rewrite E; discriminate)) as L. rewrite E in L. rewrite <- E in L at 2. apply in_map_iff in L as ([r k] & Q & L). rewrite <- Q. cbn. rewrite (H r k L). lia.
Qed.
Lemma result_last d : result_of d = true <-> exists r n rest, dl_done d = rest ++ [(r, n)] /\ 0 < n.
Proof.
  unfold result_of. destruct (dl_done d) as [|e l _] using rev_ind.
  - cbn. split; [discriminate|]. intros (r & n & rest & E & _). destruct rest; discriminate.
  - rewrite map_app. cbn [map]. rewrite last_last. destruct e as [r n]. cbn [snd]. split.
    + intros H. exists r, n, l. split; [reflexivity|now apply Nat.ltb_lt].
    + intros (r' & n' & rest & E & H). apply app_inj_tail in E as [_ E]. injection E as -> ->. now apply Nat.ltb_lt.
Qed.

(** Serialized samples *)
Lemma message_ok layer p : wf_psample p -> (len (ser_payload p) < 2 ^ 32)%Z -> ps_cmd p = bct_set_sample ->
  message_of layer (ser_payload p) =
  Some (ps_tname p, Msg (ps_tid p) (ps_payload p) (ps_id p) (ps_clock p) (ps_time p) (ps_hash p mod 2 ^ 64)%Z layer).
Proof. intros W S C. unfold message_of. rewrite (payload_rt p W S), C. reflexivity. Qed.
Lemma message_other layer bs x : message_of layer bs = Some x -> exists p, de_payload bs = Ok p /\ ps_cmd p = bct_set_sample.
Proof. unfold message_of. destruct (de_payload bs) as [p| |]; try discriminate. destruct (ps_cmd p) eqn:E; try discriminate. eauto. Qed.

(** ** A reader of the process is the reader of RdModel *)
Lemma rd_run_app c a b x : fst (rd_run c (a ++ b) x) = fst (rd_run c b (fst (rd_run c a x))).
Proof.
  revert x. induction a as [|o a IH]; intros x; [reflexivity|]. cbn [app rd_run]. destruct (rd_step c o x) as [x1 o1]. specialize (IH x1).
  destruct (rd_run c (a ++ b) x1), (rd_run c a x1). cbn [fst] in *. exact IH.
Qed.
Lemma stop_readers r c x l : forall m, aget r m = Some (c, x) ->
  aget r (fold_left stop_reader l m) = Some (c, fst (rd_run c (repeat RStop (count_occ Nat.eq_dec l r)) x)).
Proof.
  revert x. induction l as [|o l IH]; intros x m H; [exact H|]. cbn [fold_left count_occ]. destruct (Nat.eq_dec o r) as [->|N].
  - cbn [repeat rd_run]. destruct (rd_step c RStop x) as [x1 o1] eqn:E. rewrite (IH x1).
    + destruct (rd_run c _ x1). reflexivity.
    + unfold stop_reader. rewrite H, aget_aset_same, E. reflexivity.
  - apply IH. unfold stop_reader. destruct (aget o m) as [[c' x']|]; [|exact H]. now rewrite aget_aset_other by congruence.
Qed.
Lemma reader_step r c x s o : aget r (sy_readers s) = Some (c, x) ->
  aget r (sy_readers (fst (sy_step s o))) = Some (c, fst (rd_run c (asked1 r s o) x)).
Proof.
  intros H. unfold asked1. rewrite H. destruct o as [y|r' c'|r' o|t n m|t]; cbn [sy_step].
  - destruct y; try exact H. cbn [fst sy_readers]. unfold gt_stop. destruct (gt_on (sy_gate s)); [now apply stop_readers|exact H].
  - destruct (aget r' (sy_readers s)) eqn:E; [exact H|]. cbn [fst sy_readers]. rewrite aget_aset_other; [exact H|congruence].
  - destruct (Nat.eqb_spec r' r) as [->|N].
    + rewrite H. destruct o; try exact H;
      (match goal with |- context [rd_step ?c ?o ?x] => cbn [rd_run]; destruct (rd_step c o x); cbn [fst sy_readers]; rewrite aget_aset_same; reflexivity end).
    + destruct (aget r' (sy_readers s)) as [[c' x']|]; [|exact H]. destruct o; try exact H;
      (match goal with |- context [rd_step ?c ?o ?x] => destruct (rd_step c o x); cbn [fst sy_readers]; rewrite aget_aset_other by congruence; exact H end).
  - destruct (aget t (sy_del s)); [exact H|]. destruct (gt_on (sy_gate s)); exact H.
  - destruct (aget t (sy_del s)) as [[m [|r' todo] done]|]; try exact H. destruct (Nat.eqb_spec r' r) as [->|N].
    + rewrite H. cbn [rd_run rd_step]. destruct (rd_apply c m x) as [x1 o1]. cbn [fst sy_readers]. rewrite aget_aset_same. reflexivity.
    + destruct (aget r' (sy_readers s)) as [[c' x']|]; [|exact H]. destruct (rd_apply c' m x'). cbn [fst sy_readers]. rewrite aget_aset_other by congruence. exact H.
Qed.
Lemma reader_run r c l : forall s x, aget r (sy_readers s) = Some (c, x) ->
  aget r (sy_readers (fst (sy_run l s))) = Some (c, fst (rd_run c (asked r l s) x)).
Proof.
  induction l as [|o l IH]; intros s x H; [exact H|]. cbn [sy_run asked]. pose proof (reader_step r c x s o H) as H1. rewrite rd_run_app.
  destruct (sy_step s o) as [s1 o1]. cbn [fst] in *. specialize (IH _ _ H1). destruct (sy_run l s1). exact IH.
Qed.
Lemma reader_from a r c b : aget r (sy_readers (final a)) = None ->
  aget r (sy_readers (final (a ++ OCreate r c :: b))) = Some (c, fst (rd_run c (asked r b (final (a ++ [OCreate r c]))) rd_new)).
Proof.
  intros N. change (OCreate r c :: b) with ([OCreate r c] ++ b). rewrite app_assoc. unfold final at 1. rewrite sy_app.
  destruct (sy_run (a ++ [OCreate r c]) sys0) as [s1 o1] eqn:E.
  assert (F : final (a ++ [OCreate r c]) = s1) by (unfold final; now rewrite E). rewrite F.
  assert (H : aget r (sy_readers s1) = Some (c, rd_new)).
  { rewrite <- F, final_snoc. cbn [sy_step]. rewrite N. cbn [fst sy_readers]. now rewrite aget_aset_same. }
  pose proof (reader_run r c b s1 rd_new H) as R. destruct (sy_run b s1). exact R.
Qed.
(** Messages come from deliveries of the topic. *)
Lemma asked_arrive r b : forall l m, In (RArrive m) (asked r b (final l)) ->
  exists th b1 b2 n a1, b = b1 ++ OApply th :: b2 /\ (exists a2, l ++ b1 = a1 ++ OTake th n m :: a2) /\ In r (gt_range n (sy_gate (final a1))).
Proof.
  induction b as [|x b IH]; intros l m H; [destruct H|]. cbn [asked] in H. apply in_app_or in H as [H|H].
  - unfold asked1 in H. destruct (aget r (sy_readers (final l))); [|destruct H]. destruct x as [y|r' c'|r' o|t n m'|t]; try destruct H.
    + destruct y; try destruct H. destruct (gt_on _); [|destruct H]. apply repeat_spec in H. discriminate.
    + destruct (Nat.eqb r' r); [|destruct H]. destruct o; cbn in H; intuition discriminate.
    + destruct (aget t (sy_del (final l))) as [[m0 [|r' todo] done]|] eqn:E; try destruct H. destruct (Nat.eqb_spec r' r) as [->|]; [|destruct H].
      destruct H as [H|[]]. injection H as ->. destruct (delivery_inv _ _ _ _ _ E) as (_ & a1 & a2 & n & E' & G & B).
      exists t, [], b, n, a1. split; [reflexivity|]. split; [exists a2; now rewrite app_nil_r|]. rewrite <- B. apply in_or_app. right. now left.
  - rewrite <- final_snoc in H. destruct (IH _ _ H) as (th & b1 & b2 & n & a1 & -> & (a2 & E) & R). exists th, (x :: b1), b2, n, a1.
    split; [reflexivity|]. split; [|exact R]. exists a2. rewrite <- E. now rewrite <- app_assoc.
Qed.
Lemma asked_topic a r c b m : once (gate_ops (a ++ OCreate r c :: b)) -> In (RArrive m) (asked r b (final (a ++ [OCreate r c]))) ->
  exists th n x y, a ++ OCreate r c :: b = x ++ OTake th n m :: y /\ holds n r (gate_ops x).
Proof.
  intros O H. apply asked_arrive in H as (th & b1 & b2 & n & a1 & E & (a2 & E2) & R). exists th, n, a1, (a2 ++ OApply th :: b2).
  assert (Q : a ++ OCreate r c :: b = a1 ++ OTake th n m :: a2 ++ OApply th :: b2).
  { subst b. change (OCreate r c :: b1 ++ OApply th :: b2) with ([OCreate r c] ++ b1 ++ OApply th :: b2). rewrite !app_assoc. rewrite E2. rewrite <- app_assoc. reflexivity. }
  split; [exact Q|]. rewrite final_gate in R. apply range_holds; [|exact R]. rewrite Q, gate_ops_app in O. now apply once_app in O.
Qed.
