(** Lemmas about registration over shared memory. *)
From Verif Require Import Base ShmRegModel ShmRegSpec.

Lemma existsb_Z id l : existsb (Z.eqb id) l = true <-> In id l.
Proof.
  rewrite existsb_exists. split.
  - intros [x [Hx He]]. apply Z.eqb_eq in He. subst; assumption.
  - intros Hin. exists id. split; [assumption|apply Z.eqb_refl].
Qed.
Lemma existsb_Z_false id l : existsb (Z.eqb id) l = false <-> ~ In id l.
Proof. rewrite <- existsb_Z. destruct (existsb (Z.eqb id) l); split; congruence. Qed.

Section Proofs.
  Context {S : Type}.
  Variable sz : list S -> Z.
  Hypothesis sz_nonneg : forall l, (0 <= sz l)%Z.

  Definition ev_msgs lock linked opened store (e : Z * evtype) : list (list S) :=
    let '(id, ty) := e in
    match ty with
    | EvUpdated => if openable linked opened id && lock id then [content store id] else []
    | _ => []
    end.
  Definition ev_ok lock linked opened (e : Z * evtype) : bool :=
    let '(id, ty) := e in
    match ty with
    | EvUpdated => openable linked opened id && lock id
    | EvCreated => match aget id opened with Some _ => true | None => existsb (Z.eqb id) linked end
    | EvRemoved => true
    end.

  Lemma ev_ext lock linked (store : list (Z * list S)) o1 o2 e :
    aget (fst e) o1 = aget (fst e) o2 ->
    ev_msgs lock linked o1 store e = ev_msgs lock linked o2 store e /\ ev_ok lock linked o1 e = ev_ok lock linked o2 e.
  Proof. destruct e as [id ty]; cbn. unfold openable. intros ->. auto. Qed.

  Lemma newest_not_seen evs : forall seen id ty, In (id, ty) (newest seen evs) -> ~ In id seen.
  Proof.
    induction evs as [|[i t] evs IH]; cbn; intros seen id ty Hin; [contradiction|].
    destruct (existsb (Z.eqb i) seen) eqn:E; [eauto|].
    destruct Hin as [Hin|Hin].
    - injection Hin as -> ->. apply existsb_Z_false; assumption.
    - apply IH in Hin. cbn in Hin. tauto.
  Qed.

  Lemma rd_loop_lemma lock linked store evs : forall handled opened,
    let '(r, o, ms) := rd_loop lock linked store handled opened evs in
    r = forallb (ev_ok lock linked opened) (newest handled evs) /\
    ms = flat_map (ev_msgs lock linked opened store) (newest handled evs).
  Proof.
    induction evs as [|[id ty] evs IH]; intros handled opened; cbn [rd_loop newest]; [auto|].
    destruct (existsb (Z.eqb id) handled) eqn:Eh; [apply IH|].
    set (is_new := match aget id opened with None => true | Some _ => false end).
    set (can_open := existsb (Z.eqb id) linked).
    assert (Hext : forall o', (forall i, i <> id -> aget i o' = aget i opened) ->
       forallb (ev_ok lock linked o') (newest (id :: handled) evs) = forallb (ev_ok lock linked opened) (newest (id :: handled) evs) /\
       flat_map (ev_msgs lock linked o' store) (newest (id :: handled) evs) = flat_map (ev_msgs lock linked opened store) (newest (id :: handled) evs)).
    { intros o' Ho'.
      assert (Hall : forall e, In e (newest (id :: handled) evs) -> aget (fst e) o' = aget (fst e) opened).
      { intros [i t] Hin. apply Ho'. apply newest_not_seen in Hin. cbn in *. intros ->. tauto. }
      clear -Hall. induction (newest (id :: handled) evs) as [|e l IHl]; cbn; [auto|].
      destruct (ev_ext lock linked store o' opened e) as [H1 H2]; [apply Hall; left; reflexivity|].
      destruct IHl as [H3 H4]; [intros; apply Hall; right; assumption|].
      rewrite H1, H2, H3, H4. auto. }
    assert (Hset : forall b i, i <> id -> aget i (aset id b opened) = aget i opened).
    { intros b i Hi. apply aget_aset_other. assumption. }
    assert (Hdel : forall o', (forall i, i <> id -> aget i o' = aget i opened) ->
                              forall i, i <> id -> aget i (adel id o') = aget i opened).
    { intros o' Ho' i Hi. rewrite aget_adel, neq_eqb by assumption. auto. }
    cbn [forallb flat_map ev_ok ev_msgs].
    destruct ty; cbn [andb negb]; rewrite ?andb_true_r, ?andb_false_r.
    - (* created *)
      unfold is_new. destruct (aget id opened) as [b|] eqn:Eo; cbn [andb].
      + specialize (IH (id :: handled) opened). destruct (rd_loop _ _ _ _ opened evs) as [[r o] ms]. exact IH.
      + fold can_open. specialize (IH (id :: handled) (aset id can_open opened)).
        destruct (Hext (aset id can_open opened)) as [H1 H2]; [apply Hset|]. rewrite H1, H2 in IH.
        destruct (rd_loop _ _ _ _ (aset id can_open opened) evs) as [[r o] ms]. destruct IH as [IH1 IH2].
        destruct can_open; cbn; split; congruence.
    - (* updated *)
      unfold openable, is_new. destruct (aget id opened) as [b|] eqn:Eo; cbn [andb].
      + rewrite Eo. specialize (IH (id :: handled) opened). fold (content store id).
        destruct (rd_loop _ _ _ _ opened evs) as [[r o] ms]. destruct IH as [IH1 IH2].
        destruct b; cbn; [destruct (lock id); cbn|]; split; congruence.
      + fold can_open. specialize (IH (id :: handled) (aset id can_open opened)).
        destruct (Hext (aset id can_open opened)) as [H1 H2]; [apply Hset|]. rewrite H1, H2 in IH.
        rewrite aget_aset_same. fold (content store id).
        destruct (rd_loop _ _ _ _ (aset id can_open opened) evs) as [[r o] ms]. destruct IH as [IH1 IH2].
        destruct can_open; cbn; [destruct (lock id); cbn|]; split; congruence.
    - (* removed *)
      unfold is_new. destruct (aget id opened) as [b|] eqn:Eo; cbn [andb app].
      + specialize (IH (id :: handled) (adel id opened)).
        destruct (Hext (adel id opened)) as [H1 H2]; [apply Hdel; auto|]. rewrite H1, H2 in IH. exact IH.
      + specialize (IH (id :: handled) (adel id (aset id false opened))).
        destruct (Hext (adel id (aset id false opened))) as [H1 H2]; [apply Hdel, Hset|]. rewrite H1, H2 in IH. exact IH.
  Qed.

  Lemma readable_lemma lock linked (store : list (Z * list S)) opened evs r o ms :
    rd_loop lock linked store [] opened evs = (r, o, ms) ->
    ms = map (fun e => content store (fst e)) (filter (readable lock linked opened) (newest [] evs)) /\
    (r = true <-> forall id ty, In (id, ty) (newest [] evs) ->
        match ty with EvRemoved => True | EvUpdated => openable linked opened id = true /\ lock id = true
                    | EvCreated => aget id opened <> None \/ In id linked end).
  Proof.
    intros E. pose proof (rd_loop_lemma lock linked store evs [] opened) as H. rewrite E in H. destruct H as [H1 H2]. split.
    - rewrite H2. clear. induction (newest [] evs) as [|[id ty] l IH]; cbn; [reflexivity|].
      destruct ty; cbn; try assumption.
      destruct (openable linked opened id && lock id); cbn; [f_equal|]; assumption.
    - rewrite H1, forallb_forall. split.
      + intros H id ty Hin. specialize (H _ Hin). cbn in H. destruct ty.
        * destruct (aget id opened); [left; discriminate|right; apply existsb_Z; assumption].
        * apply andb_true_iff; assumption.
        * exact I.
      + intros H [id ty] Hin. specialize (H _ _ Hin). cbn. destruct ty.
        * destruct (aget id opened); [reflexivity|]. apply existsb_Z. destruct H; [congruence|assumption].
        * apply andb_true_iff; assumption.
        * reflexivity.
  Qed.

  (** ** Polling after every action *)
  Record BI (used : list Z) (bound : list nat) (s : shmsys S) : Prop := {
    bi_pend : ss_pending s = [];
    bi_snap : ss_snap s = None;
    bi_bound : forall w, In w bound <-> aget w (ss_writers s) <> None;
    bi_wr : forall w wr, aget w (ss_writers s) = Some wr ->
      w_reset wr = false /\ In (w_id wr) (ss_linked s) /\ aget (w_id wr) (ss_open s) = Some true /\ In (w_id wr) used;
    bi_distinct : forall w1 w2 r1 r2, aget w1 (ss_writers s) = Some r1 -> aget w2 (ss_writers s) = Some r2 ->
      w_id r1 = w_id r2 -> w1 = w2;
    bi_open : forall id, aget id (ss_open s) <> None -> In id used }.

  Lemma existsb_nat w l : existsb (Nat.eqb w) l = true <-> In w l.
  Proof.
    rewrite existsb_exists. split.
    - intros [x [Hx He]]. apply Nat.eqb_eq in He. subst; assumption.
    - intros Hin. exists w. split; [assumption|apply Nat.eqb_refl].
  Qed.

  Lemma in_unlink x id l : In x (unlink id l) <-> In x l /\ x <> id.
  Proof. unfold unlink. rewrite filter_In, negb_true_iff, Z.eqb_neq. tauto. Qed.

  Lemma action_lemma used bound s a :
    BI used bound s -> (forall id, In id (action_id a) -> ~ In id used) ->
    let s' := ss_run sz s (polled a) in
    exists bound', BI (action_id a ++ used) bound' s' /\
      (forall w, In w bound' <-> In w (match a with ABind w _ => w :: bound | AWrite _ _ _ => bound
                                       | AUnbind w => filter (fun x => negb (Nat.eqb x w)) bound end)) /\
      ss_applied s' = ss_applied s ++ match a with AWrite w m _ => if existsb (Nat.eqb w) bound then m else [] | _ => [] end.
  Proof.
    intros [Hp Hs Hb Hw Hd Ho] Hf.
    destruct s as [store linked pend writers snap opened applied]. cbn in Hp, Hs, Hb, Hw, Hd, Ho. subst pend snap.
    destruct a as [w id|w m nid|w]; cbn [polled ss_run fold_left ss_step action_id app] in *.
    - (* bind *)
      assert (Hfr : ~ In id used) by (apply Hf; left; reflexivity).
      assert (Hno : aget id opened = None).
      { destruct (aget id opened) eqn:E; [|reflexivity]. exfalso. apply Hfr, Ho. congruence. }
      unfold ss_bind. cbn [ss_writers]. destruct (aget w writers) as [wr|] eqn:E.
      + (* already bound *)
        cbn. exists bound. split; [|split].
        * constructor; cbn; auto.
          -- intros w' wr' H'. specialize (Hw _ _ H'). tauto.
        * intros w'. split; [right; assumption|]. intros [<-|H]; [|assumption]. apply Hb. congruence.
        * rewrite app_nil_r. reflexivity.
      + cbn. rewrite Hno. cbn. rewrite Z.eqb_refl. cbn.
        exists (w :: bound). split; [|split].
        * constructor; cbn; auto.
          -- intros w'. rewrite aget_aset. destruct (eqb w' w) eqn:Ew.
             ++ apply eqb_true in Ew; subst. split; [discriminate|auto].
             ++ apply eqb_false in Ew. rewrite <- Hb. split; [intros [H|H]; [congruence|assumption]|auto].
          -- intros w' wr'. rewrite aget_aset. destruct (eqb w' w) eqn:Ew.
             ++ intros H; injection H as <-. cbn. rewrite aget_aset_same. auto.
             ++ intros H. specialize (Hw _ _ H). rewrite aget_aset. destruct (eqb (w_id wr') id) eqn:Ei; [|tauto].
                apply eqb_true in Ei. tauto.
          -- intros w1 w2 r1 r2. rewrite !aget_aset. destruct (eqb w1 w) eqn:E1, (eqb w2 w) eqn:E2.
             ++ apply eqb_true in E1, E2. congruence.
             ++ intros H1 H2 Hi. injection H1 as <-. cbn in Hi. apply Hw in H2. exfalso. apply Hfr. rewrite Hi. tauto.
             ++ intros H1 H2 Hi. injection H2 as <-. cbn in Hi. apply Hw in H1. exfalso. apply Hfr. rewrite <- Hi. tauto.
             ++ apply Hd.
          -- intros i. rewrite aget_aset. destruct (eqb i id) eqn:Ei; [apply eqb_true in Ei; auto|]. intros H. right. auto.
        * intros w'; reflexivity.
        * reflexivity.
    - (* write *)
      assert (Hfr : ~ In nid used) by (apply Hf; left; reflexivity).
      assert (Hno : aget nid opened = None).
      { destruct (aget nid opened) eqn:E; [|reflexivity]. exfalso. apply Hfr, Ho. congruence. }
      assert (Hsame : exists bound', BI (nid :: used) bound' (ShmSys store linked [] writers None opened applied) /\
                 (forall w', In w' bound' <-> In w' bound)).
      { exists bound. split; [|tauto]. constructor; cbn; auto.
        intros w' wr' H'. specialize (Hw _ _ H'). tauto. }
      unfold ss_write. destruct m as [|x m].
      { cbn. rewrite app_nil_r. destruct Hsame as [b' [H1 H2]]. exists b'. split; [exact H1|]. split; [exact H2|].
        destruct (existsb _ _); rewrite app_nil_r; reflexivity. }
      cbn [ss_writers]. destruct (aget w writers) as [wr|] eqn:E.
      + assert (Hin : existsb (Nat.eqb w) bound = true) by (apply existsb_nat, Hb; congruence).
        rewrite Hin. destruct (Hw _ _ E) as [Hr [Hl [Hop Hu]]].
        destruct (Z.ltb (w_max wr) (sz (x :: m)) || w_reset wr) eqn:El.
        * (* new payload file *)
          assert (Hne : w_id wr <> nid) by (intros H; apply Hfr; rewrite <- H; assumption).
          assert (Hne' : Z.eqb (w_id wr) nid = false) by (apply Z.eqb_neq; assumption).
          assert (Hne2 : Z.eqb nid (w_id wr) = false) by (apply Z.eqb_neq; congruence).
          assert (Hfit : Z.leb (sz (x :: m)) (sz (x :: m) * 2) = true) by (apply Z.leb_le; pose proof (sz_nonneg (x :: m)); lia).
          cbn [ss_store ss_linked ss_pending ss_writers ss_snap ss_open ss_applied w_id w_max w_reset app ss_snapshot rev ss_process rd_loop existsb].
          rewrite Hfit, Hno. cbn [andb negb]. rewrite Z.eqb_refl. cbn [orb andb negb]. rewrite aget_aset_same. cbn [existsb].
          rewrite ?Z.eqb_refl, ?Hne'. cbn [orb]. rewrite aget_aset_other by assumption. rewrite Hop. cbn [andb rd_loop].
          rewrite aget_aset_same.
          cbn [rcv_messages app]. rewrite app_nil_r.
          exists bound. split; [|split].
          -- constructor; cbn; auto.
             ++ intros w'. rewrite aget_aset. destruct (eqb w' w) eqn:Ew; [|apply Hb].
                apply eqb_true in Ew; subst. rewrite Hb, E. split; discriminate.
             ++ intros w' wr'. rewrite aget_aset. destruct (eqb w' w) eqn:Ew.
                ** intros H; injection H as <-. cbn. split; [reflexivity|]. split; [left; reflexivity|]. split; [|left; reflexivity].
                   rewrite aget_adel, neq_eqb by congruence. apply aget_aset_same.
                ** apply eqb_false in Ew. intros H. destruct (Hw _ _ H) as [G1 [G2 [G3 G4]]].
                   assert (w_id wr' <> w_id wr) by (intros X; apply Ew; eapply Hd; eauto).
                   assert (w_id wr' <> nid) by (intros X; apply Hfr; rewrite <- X; assumption).
                   split; [assumption|]. split; [right; apply in_unlink; auto|]. split; [|right; assumption].
                   rewrite aget_adel, neq_eqb by congruence. rewrite aget_aset_other; assumption.
             ++ intros w1 w2 r1 r2. rewrite !aget_aset. destruct (eqb w1 w) eqn:E1, (eqb w2 w) eqn:E2.
                ** apply eqb_true in E1, E2. congruence.
                ** intros H1 H2 Hi. injection H1 as <-. cbn in Hi. apply Hw in H2. exfalso. apply Hfr. rewrite Hi. tauto.
                ** intros H1 H2 Hi. injection H2 as <-. cbn in Hi. apply Hw in H1. exfalso. apply Hfr. rewrite <- Hi. tauto.
                ** apply Hd.
             ++ intros i. rewrite aget_adel. destruct (eqb i (w_id wr)) eqn:Ei; [congruence|].
                rewrite aget_aset. destruct (eqb i nid) eqn:Ej; [apply eqb_true in Ej; auto|]. auto.
          -- tauto.
          -- reflexivity.
        * (* same payload file *)
          assert (Hfit : Z.leb (sz (x :: m)) (w_max wr) = true)
            by (apply orb_false_iff in El as [El _]; apply Z.ltb_ge in El; apply Z.leb_le; lia).
          rewrite Hfit.
          cbn [ss_store ss_linked ss_pending ss_writers ss_snap ss_open ss_applied app ss_snapshot rev ss_process rd_loop existsb].
          rewrite Hop. cbn [andb negb]. rewrite Hop, aget_aset_same. cbn [rd_loop rcv_messages app]. rewrite app_nil_r.
          exists bound. split; [|split].
          -- constructor; cbn; auto.
             ++ intros w'. rewrite aget_aset. destruct (eqb w' w) eqn:Ew; [|apply Hb].
                apply eqb_true in Ew; subst. rewrite Hb, E. split; discriminate.
             ++ intros w' wr'. rewrite aget_aset. destruct (eqb w' w) eqn:Ew.
                ** intros H; injection H as <-. auto.
                ** intros H. specialize (Hw _ _ H). tauto.
             ++ intros w1 w2 r1 r2. rewrite !aget_aset. destruct (eqb w1 w) eqn:E1, (eqb w2 w) eqn:E2.
                ** apply eqb_true in E1, E2. congruence.
                ** intros H1 H2 Hi. injection H1 as <-. apply eqb_true in E1. subst w1. eapply Hd; eauto.
                ** intros H1 H2 Hi. injection H2 as <-. apply eqb_true in E2. subst w2. eapply Hd; eauto.
                ** apply Hd.
          -- tauto.
          -- reflexivity.
      + assert (Hin : existsb (Nat.eqb w) bound = false).
        { destruct (existsb (Nat.eqb w) bound) eqn:X; [|reflexivity]. apply existsb_nat, Hb in X. congruence. }
        rewrite Hin. cbn. rewrite app_nil_r. destruct Hsame as [b' [H1 H2]]. exists b'. auto.
    - (* unbind *)
      unfold ss_unbind. cbn [ss_writers]. destruct (aget w writers) as [wr|] eqn:E.
      + destruct (Hw _ _ E) as [Hr [Hl [Hop Hu]]].
        cbn. rewrite Hop. cbn.
        exists (filter (fun x => negb (Nat.eqb x w)) bound). split; [|split].
        * constructor; cbn; auto.
          -- intros w'. rewrite filter_In, negb_true_iff, Nat.eqb_neq, aget_adel, Hb.
             destruct (eqb w' w) eqn:Ew; [apply eqb_true in Ew|apply eqb_false in Ew]; intuition.
          -- intros w' wr'. rewrite aget_adel. destruct (eqb w' w) eqn:Ew; [discriminate|]. apply eqb_false in Ew.
             intros H. destruct (Hw _ _ H) as [G1 [G2 [G3 G4]]].
             assert (w_id wr' <> w_id wr) by (intros X; apply Ew; eapply Hd; eauto).
             split; [assumption|]. split; [apply in_unlink; auto|]. split; [|assumption].
             rewrite aget_adel, neq_eqb by congruence. assumption.
          -- intros w1 w2 r1 r2. rewrite !aget_adel. destruct (eqb w1 w), (eqb w2 w); try discriminate. apply Hd.
          -- intros i. rewrite aget_adel. destruct (eqb i (w_id wr)); [congruence|]. apply Ho.
        * intros; reflexivity.
        * rewrite ?app_nil_r; reflexivity.
      + cbn. exists bound. split; [|split].
        * constructor; cbn; auto.
        * intros w'. rewrite filter_In, negb_true_iff, Nat.eqb_neq. split; [|tauto]. intros H. split; [assumption|].
          intros ->. apply Hb in H. congruence.
        * rewrite app_nil_r. reflexivity.
  Qed.

  Lemma sent_lists_ext l : forall b1 b2, (forall w, In w b1 <-> In w b2) -> @sent_lists S b1 l = sent_lists b2 l.
  Proof.
    induction l as [|a l IH]; intros b1 b2 H; cbn; [reflexivity|]. destruct a as [w id|w m nid|w].
    - apply IH. intros x. cbn. rewrite H. reflexivity.
    - replace (existsb (Nat.eqb w) b1) with (existsb (Nat.eqb w) b2).
      + f_equal. apply IH, H.
      + destruct (existsb (Nat.eqb w) b2) eqn:E; symmetry.
        * apply existsb_nat. apply H, existsb_nat, E.
        * destruct (existsb (Nat.eqb w) b1) eqn:E1; [|reflexivity]. apply existsb_nat, H, existsb_nat in E1. congruence.
    - apply IH. intros x. rewrite !filter_In, H. reflexivity.
  Qed.

  Lemma actions_lemma l : forall used bound s, BI used bound s -> NoDup (flat_map action_id l) ->
    (forall id, In id (flat_map action_id l) -> ~ In id used) ->
    ss_applied (ss_run sz s (flat_map polled l)) = ss_applied s ++ sent_lists bound l.
  Proof.
    induction l as [|a l IH]; intros used bound s HB Hn Hf; cbn [flat_map sent_lists].
    - cbn. rewrite app_nil_r. reflexivity.
    - unfold ss_run. rewrite fold_left_app. fold (ss_run sz s (polled a)).
      destruct (action_lemma used bound s a HB) as [b' [HB' [Hb' Ha]]].
      { intros id Hin. apply Hf. cbn. apply in_app_iff; auto. }
      change (fold_left (ss_step sz) (flat_map polled l) (ss_run sz s (polled a)))
        with (ss_run sz (ss_run sz s (polled a)) (flat_map polled l)).
      cbn [flat_map] in Hn, Hf.
      rewrite (IH _ _ _ HB'), Ha, <- app_assoc.
      + f_equal. rewrite (sent_lists_ext l b' _ Hb').
        destruct a; cbn; rewrite ?app_nil_l; reflexivity.
      + apply nodup_app_r in Hn. assumption.
      + intros id Hin Hu. apply in_app_iff in Hu as [Hu|Hu].
        * clear -Hn Hin Hu. induction (action_id a) as [|y ys IHy]; [contradiction|]. cbn in Hn. inversion Hn; subst.
          destruct Hu as [->|Hu]; [|auto]. apply H1, in_app_iff; auto.
        * eapply Hf; [apply in_app_iff; right; exact Hin|assumption].
  Qed.

  Lemma polled_lemma (l : list (action S)) : NoDup (flat_map action_id l) ->
    ss_applied (ss_run sz ss_init (flat_map polled l)) = sent_lists [] l.
  Proof.
    intros Hn. rewrite (actions_lemma l [] [] ss_init); auto.
    constructor; cbn; try tauto; try discriminate; intros; try discriminate. all: congruence.
  Qed.
End Proofs.

(** ** Refutations; two processes, samples named by numbers. *)
Definition sz1 (l : list nat) : Z := 100 * Z.of_nat (length l).

(** Two lists sent between two polls. *)
Lemma overwritten_lemma :
  ss_applied (ss_run sz1 ss_init
    [SBind 1 10; SSnapshot; SProcess (fun _ => true);
     SWrite 1 [1; 2] 11 true; SWrite 1 [3] 12 true; SSnapshot; SProcess (fun _ => true)]) = [3].
Proof. reflexivity. Qed.
(** The last list of a process that goes away. *)
Lemma farewell_lemma :
  ss_applied (ss_run sz1 ss_init
    [SBind 1 10; SSnapshot; SProcess (fun _ => true);
     SWrite 1 [7] 11 true; SUnbind 1; SSnapshot; SProcess (fun _ => true)]) = [].
Proof. reflexivity. Qed.
(** Two processes' lists in one poll. *)
Lemma repeated_lemma :
  ss_applied (ss_run sz1 ss_init
    [SBind 1 10; SBind 2 20; SSnapshot; SProcess (fun _ => true);
     SWrite 1 [1] 11 true; SWrite 2 [2] 21 true; SSnapshot; SProcess (fun _ => true)]) = [2; 2; 1].
Proof. reflexivity. Qed.
(** A process goes away between the announcement and the opening of its payload. *)
Lemma hidden_lemma :
  ss_applied (ss_run sz1 ss_init
    [SBind 1 10; SSnapshot; SProcess (fun _ => true);
     SWrite 1 [1] 11 true; SBind 2 20; SSnapshot; SUnbind 2; SProcess (fun _ => true)]) = [].
Proof. reflexivity. Qed.
