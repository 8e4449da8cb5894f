From Verif Require Import Base ExpMapModel ExpMapSpec ExpMapProofs ConnModel ConnSpec.

Section CP.
  Context {K V : Type} `{EqDec K}.
  Variable dflt : V.
  Notation conn := (conn K V). Notation wop := (wop K V).

  Definition mop (o : wop) : emop K V :=
    match o with WApply now k v => OIndex now k (fun _ => v) | WRemove k => OErase k | WCheck now => OExpire now end.

  Lemma micro_run_app a b (s : conn) : micro_run dflt (a ++ b) s =
    match micro_run dflt a s with Some s' => micro_run dflt b s' | None => None end.
  Proof. revert s. induction a as [|m a IH]; intros s; cbn; [reflexivity|]. destruct (micro_step dflt m s); auto. Qed.

  Lemma em_run_app (a b : list (emop K V)) s : em_run dflt (a ++ b) s =
    match em_run dflt a s with Some s' => em_run dflt b s' | None => None end.
  Proof. revert s. induction a as [|m a IH]; intros s; cbn; [reflexivity|]. destruct (em_step dflt m s); auto. Qed.

  Definition nonempty (m : emap K V) : bool := match em_contents m with [] => false | _ => true end.

  Lemma whole_apply now k v (s : conn) m' : idle s -> em_index dflt now k (fun _ => v) (cn_map s) = Some m' ->
    micro_run dflt (whole (WApply now k v)) s =
    Some (Conn true m' (cn_events s ++ (if cn_flag s then [] else [EvConnected k v]) ++ [EvUpdate k v]) AIdle KIdle).
  Proof.
    destruct s as [f m e a c]. intros [A C] E. cbn in A, C, E. subst a c. cbn.
    destruct f; cbn; rewrite E; [reflexivity|]. rewrite <- app_assoc. reflexivity.
  Qed.
  Lemma whole_remove k (s : conn) m' b : idle s -> em_erase k (cn_map s) = Some (m', b) ->
    micro_run dflt (whole (WRemove k)) s = Some (Conn (cn_flag s) m' (cn_events s) AIdle KIdle).
  Proof. destruct s as [f m e a c]. intros [A C] E. cbn in A, C, E. subst a c. cbn. rewrite E. reflexivity. Qed.
  Lemma whole_check now (s : conn) : idle s -> let m' := fst (em_erase_expired now (cn_map s)) in
    micro_run dflt (whole (WCheck now)) s =
    Some (Conn (cn_flag s && nonempty m') m' (cn_events s ++ if cn_flag s && negb (nonempty m') then [EvDisconnected] else []) AIdle KIdle).
  Proof.
    destruct s as [f m e a c]. intros [A C]. cbn in A, C. subst a c. cbn. unfold nonempty.
    destruct (em_contents (fst (em_erase_expired now m))); cbn.
    - destruct f; cbn; [reflexivity|]. rewrite app_nil_r. reflexivity.
    - rewrite !andb_false_r, andb_true_r, app_nil_r. reflexivity.
  Qed.

  Record J (timeout : Z) (os : list wop) (s : conn) : Prop := {
    j_idle : idle s;
    j_run : em_run dflt (map mop os) (em_new timeout) = Some (cn_map s);
    j_inv : Inv0 (cn_map s);
    j_flag : nonempty (cn_map s) = true -> cn_flag s = true;
    j_alt : alternating (signals (cn_events s));
    j_par : cn_flag s = Nat.odd (length (signals (cn_events s)));
    j_upd : updates (cn_events s) = announced os }.

  Lemma signals_app (a b : list (cev K V)) : signals (a ++ b) = signals a ++ signals b.
  Proof. apply flat_map_app. Qed.
  Lemma updates_app (a b : list (cev K V)) : updates (a ++ b) = updates a ++ updates b.
  Proof. apply flat_map_app. Qed.
  Lemma alternating_snoc l b : alternating l -> b = Nat.even (length l) -> alternating (l ++ [b]).
  Proof.
    intros A E i x Hx. destruct (Nat.lt_ge_cases i (length l)) as [L|L].
    - rewrite nth_error_app1 in Hx by assumption. apply A, Hx.
    - rewrite nth_error_app2 in Hx by assumption. destruct (i - length l) as [|n] eqn:D.
      + cbn in Hx. injection Hx as <-. replace i with (length l) by lia. exact E.
      + cbn in Hx. now destruct n.
  Qed.

  Lemma announced_snoc (os : list wop) o : announced (os ++ [o]) = announced os ++ match o with WApply _ k v => [(k, v)] | _ => [] end.
  Proof. unfold announced. rewrite flat_map_app. cbn. now rewrite app_nil_r. Qed.
  Lemma evict_nil limit l out : let '(_, m, _) := em_evict (V := V) limit l (@nil (K * mentry V)) out in m = [].
  Proof. revert out. induction l as [|c l IH]; intros out; cbn; [reflexivity|]. destruct (c_ts c <? limit)%Z; [apply IH|reflexivity]. Qed.

  Lemma conn_inv timeout os : exists s, micro_run dflt (serial os) (conn_new timeout) = Some s /\ J timeout os s.
  Proof.
    induction os as [|o os IH] using rev_ind.
    - exists (conn_new timeout). split; [reflexivity|]. constructor; cbn.
      + split; reflexivity.
      + reflexivity.
      + apply inv0_new.
      + discriminate.
      + intros [|i] b; discriminate.
      + reflexivity.
      + reflexivity.
    - destruct IH as (s & R & [ID RU IN FL AL PA UP]).
      unfold serial in *. rewrite flat_map_app. cbn [flat_map]. rewrite app_nil_r, micro_run_app, R.
      destruct o as [now k v|k|now].
      + destruct (inv0_index dflt now k (fun _ => v) (cn_map s) IN) as (m' & E & IN').
        rewrite (whole_apply now k v s m' ID E). eexists; split; [reflexivity|]. constructor; cbn [cn_flag cn_map cn_events].
        * split; reflexivity.
        * rewrite map_app, em_run_app, RU. cbn. rewrite E. reflexivity.
        * exact IN'.
        * reflexivity.
        * rewrite !signals_app. change (signals [EvUpdate k v]) with (@nil bool). rewrite app_nil_r.
          destruct (cn_flag s) eqn:F; [rewrite app_nil_r; exact AL|]. apply alternating_snoc; [exact AL|].
          rewrite <- Nat.negb_odd, <- PA. reflexivity.
        * rewrite !signals_app. change (signals [EvUpdate k v]) with (@nil bool). rewrite app_nil_r.
          destruct (cn_flag s) eqn:F; [rewrite app_nil_r; exact PA|].
          rewrite app_length. cbn [signals flat_map length app]. rewrite Nat.add_1_r, Nat.odd_succ, <- Nat.negb_odd, <- PA. reflexivity.
        * rewrite announced_snoc, !updates_app, UP. destruct (cn_flag s); reflexivity.
      + destruct (inv0_erase k (cn_map s) IN) as (m' & b & E & IN').
        rewrite (whole_remove k s m' b ID E). eexists; split; [reflexivity|]. constructor; cbn [cn_flag cn_map cn_events].
        * split; reflexivity.
        * rewrite map_app, em_run_app, RU. cbn. rewrite E. reflexivity.
        * exact IN'.
        * intros NE. apply FL. unfold nonempty, em_contents in *. unfold em_erase in E.
          destruct (aget k (e_map (cn_map s))) as [x|] eqn:G; [|injection E as <- _; exact NE].
          destruct (e_map (cn_map s)); [discriminate|reflexivity].
        * exact AL.
        * exact PA.
        * rewrite announced_snoc, app_nil_r. exact UP.
      + rewrite (whole_check now s ID). eexists; split; [reflexivity|]. constructor; cbn [cn_flag cn_map cn_events].
        * split; reflexivity.
        * rewrite map_app, em_run_app, RU. reflexivity.
        * apply inv0_expire, IN.
        * intros NE. rewrite NE, andb_true_r. apply FL.
          unfold nonempty, em_contents in *. destruct (e_map (cn_map s)) eqn:M; [|reflexivity].
          exfalso. assert (X : e_map (fst (em_erase_expired now (cn_map s))) = []).
          { unfold em_erase_expired. pose proof (evict_nil (now - e_timeout (cn_map s)) (e_list (cn_map s)) []) as EN.
            rewrite M. destruct (em_evict _ _ _ _) as [[l m] out]. exact EN. }
          rewrite X in NE. discriminate.
        * rewrite signals_app. destruct (cn_flag s) eqn:F; cbn [andb signals flat_map]; [|rewrite app_nil_r; exact AL].
          destruct (nonempty (fst (em_erase_expired now (cn_map s)))); cbn [negb signals flat_map]; [rewrite app_nil_r; exact AL|]. apply alternating_snoc; [exact AL|].
          rewrite <- Nat.negb_odd, <- PA. reflexivity.
        * rewrite signals_app. destruct (cn_flag s) eqn:F; cbn [andb signals flat_map]; [|rewrite app_nil_r; exact PA].
          destruct (nonempty (fst (em_erase_expired now (cn_map s)))); cbn [negb signals flat_map]; [rewrite app_nil_r; exact PA|].
          rewrite app_length. cbn [signals flat_map length app]. rewrite Nat.add_1_r, Nat.odd_succ, <- Nat.negb_odd, <- PA. reflexivity.
        * rewrite announced_snoc, updates_app, UP. destruct (_ && _); reflexivity.
  Qed.

  Lemma mop_no_insert (os : list wop) : no_insert (map mop os).
  Proof. intros now k v Hin. apply in_map_iff in Hin. destruct Hin as ([?|?|?] & E & _); discriminate. Qed.
  Lemma mop_no_setexp (os : list wop) tt : ~ In (OSetExpiration tt) (map mop os).
  Proof. intros Hin. apply in_map_iff in Hin. destruct Hin as ([?|?|?] & E & _); discriminate. Qed.
  Lemma mop_clock (os : list wop) : forall t, times_from t os -> clock_from t (map mop os).
  Proof. induction os as [|[now k v|k|now] os IH]; intros t; cbn; auto; intros [A B]; auto. Qed.

  Lemma times_last (os : list wop) : forall t now t' , times_from t (os ++ [WCheck now]) -> In (WCheck t') os -> (t' <= now)%Z.
  Proof.
    assert (G : forall (l : list wop) t now, times_from t (l ++ [WCheck now]) -> (t <= now)%Z).
    { induction l as [|[n k v|k|n] l IH]; intros t now; cbn.
      - lia.
      - intros [A B]. apply IH in B. lia.
      - apply IH.
      - intros [A B]. apply IH in B. lia. }
    induction os as [|[n k v|k|n] os IH]; intros t now t'; cbn; [easy| | |].
    - intros [A B] [E|E]; [discriminate|]. eapply IH; eauto.
    - intros B [E|E]; [discriminate|]. eapply IH; eauto.
    - intros [A B] [E|E]; [injection E as <-; eapply G; eauto|]. eapply IH; eauto.
  Qed.

  Lemma map_split (os : list wop) : forall h1 t k f h2, map mop os = h1 ++ OIndex t k f :: h2 ->
    exists w1 v w2, os = w1 ++ WApply t k v :: w2 /\ map mop w1 = h1 /\ map mop w2 = h2.
  Proof.
    induction os as [|o os IH]; intros h1 t k f h2 E; [now destruct h1|].
    destruct h1 as [|x h1]; cbn in E.
    - injection E as E1 E2. destruct o as [n k' v|k'|n]; cbn in E1; try discriminate. injection E1 as -> -> _.
      exists [], v, os. auto.
    - injection E as E1 E2. destruct (IH _ _ _ _ _ E2) as (w1 & v & w2 & -> & <- & <-).
      exists (o :: w1), v, w2. cbn. rewrite E1. auto.
  Qed.

  Lemma connected_lemma t0 timeout (os : list wop) now : times_from t0 (os ++ [WCheck now]) ->
    exists s, micro_run dflt (serial (os ++ [WCheck now])) (conn_new timeout) = Some s /\
      (cn_flag s = true <-> exists k, registered timeout now os k).
  Proof.
    intros TF. destruct (conn_inv timeout (os ++ [WCheck now])) as (s & R & JJ).
    exists s. split; [exact R|].
    assert (FN : cn_flag s = nonempty (cn_map s)).
    { destruct (nonempty (cn_map s)) eqn:N; [apply (j_flag _ _ _ JJ), N|].
      destruct (conn_inv timeout os) as (s0 & R0 & J0).
      unfold serial in R. rewrite flat_map_app, micro_run_app in R. unfold serial in R0. rewrite R0 in R.
      cbn [flat_map] in R. rewrite app_nil_r, (whole_check now s0 (j_idle _ _ _ J0)) in R. injection R as <-.
      cbn in *. rewrite N. apply andb_false_r. }
    rewrite FN.
    assert (NE : nonempty (cn_map s) = true <-> exists k v, em_find k (cn_map s) = Some v).
    { unfold nonempty. split.
      - destruct (em_contents (cn_map s)) as [|[k v] l] eqn:C; [discriminate|]. intros _. exists k, v.
        apply contents_find; [apply (j_inv _ _ _ JJ)|]. rewrite C. now left.
      - intros (k & v & F). apply contents_find in F; [|apply (j_inv _ _ _ JJ)]. destruct (em_contents _); [destruct F|reflexivity]. }
    rewrite NE. clear NE FN. pose proof (j_run _ _ _ JJ) as RU. rewrite map_app in RU. cbn [map mop] in RU.
    assert (CF : clock_from t0 (map mop os ++ [OExpire now])).
    { change [OExpire now] with (map mop [WCheck now]). rewrite <- map_app. apply mop_clock, TF. }
    split.
    - intros (k & v & F). destruct (gone_lemma dflt (map mop os) t0 timeout now (mop_no_insert os) CF (mop_no_setexp os)) as (s' & R' & G).
      rewrite RU in R'. injection R' as <-. destruct (G k v F) as (h1 & t & f & h2 & E & TO & LE).
      destruct (map_split os h1 t k f h2 E) as (w1 & v' & w2 & -> & <- & <-).
      exists k, w1, t, v', w2. split; [reflexivity|]. split; [exact LE|]. split.
      + intros t' v'' Hin. specialize (TO (OIndex t' k (fun _ => v''))). cbn in TO. rewrite eqb_refl in TO.
        discriminate TO. apply in_map_iff. exists (WApply t' k v''). auto.
      + intros Hin. specialize (TO (OErase k)). cbn in TO. rewrite eqb_refl in TO.
        discriminate TO. apply in_map_iff. exists (WRemove k). auto.
    - intros (k & h1 & t & v & h2 & -> & LE & NA & NR).
      rewrite map_app in RU. cbn [map mop] in RU. rewrite <- app_assoc in RU. cbn [app] in RU.
      rewrite map_app in CF. cbn [map mop] in CF. rewrite <- app_assoc in CF. cbn [app] in CF.
      edestruct (alive_lemma dflt (map mop h1) (map mop h2 ++ [OExpire now]) t0 timeout k (fun _ => v) t) as (s' & s1 & R' & _ & F).
      + intros n k' v' Hin. rewrite in_app_iff in Hin. cbn in Hin. rewrite in_app_iff in Hin.
        destruct Hin as [Hin|[Hin|[Hin|[Hin|[]]]]]; try discriminate; eapply mop_no_insert, Hin.
      + exact CF.
      + intros tt Hin. rewrite in_app_iff in Hin. cbn in Hin. rewrite in_app_iff in Hin.
        destruct Hin as [Hin|[Hin|[Hin|[Hin|[]]]]]; try discriminate; eapply mop_no_setexp, Hin.
      + intros o Hin. rewrite in_app_iff in Hin. destruct Hin as [Hin|[<-|[]]]; [|reflexivity].
        apply in_map_iff in Hin. destruct Hin as ([n k' v'|k'|n] & <- & Hin); cbn; [| |reflexivity].
        * destruct (eqb k k') eqn:E; [|reflexivity]. apply eqb_true in E. subst k'. exfalso. eapply NA, Hin.
        * destruct (eqb k k') eqn:E; [|reflexivity]. apply eqb_true in E. subst k'. exfalso. apply NR, Hin.
      + intros n Hin. rewrite in_app_iff in Hin. destruct Hin as [Hin|[Hin|[]]].
        * apply in_map_iff in Hin. destruct Hin as ([n' k' v'|k'|n'] & E & Hin); try discriminate. cbn in E. injection E as ->.
          assert (n <= now)%Z; [|lia]. eapply times_last; [exact TF|]. rewrite in_app_iff. cbn. auto.
        * injection Hin as <-. exact LE.
      + rewrite RU in R'. injection R' as <-. eauto.
  Qed.

  Lemma events_lemma timeout (os : list wop) :
    exists s, micro_run dflt (serial os) (conn_new timeout) = Some s /\ idle s /\
      alternating (signals (cn_events s)) /\ cn_flag s = Nat.odd (length (signals (cn_events s))) /\
      updates (cn_events s) = announced os.
  Proof. destruct (conn_inv timeout os) as (s & R & [ID RU IN FL AL PA UP]). exists s. auto. Qed.
End CP.

Lemma overlap_events_refuted_lemma :
  ~ (forall (timeout : Z) (ms : list (micro nat nat)) s,
       micro_run 0 ms (conn_new timeout) = Some s -> alternating (signals (cn_events s))).
Proof.
  intros X. specialize (X 10%Z [MStart 1 7; MStep 0; MCheck 0; MCheckStep; MCheckStep; MStep 0]).
  cbn in X. specialize (X _ eq_refl 0 false eq_refl). discriminate.
Qed.
Lemma overlap_flag_refuted_lemma :
  ~ (forall (timeout : Z) (ms : list (micro nat nat)) (now : Z) s s',
       micro_run 0 ms (conn_new timeout) = Some s -> idle s ->
       micro_run 0 (whole (WCheck now)) s = Some s' -> em_contents (cn_map s') <> [] -> cn_flag s' = true).
Proof.
  intros X. specialize (X 10%Z [MStart 1 7; MStep 0; MStep 0; MStep 0; MCheck 0; MCheckStep; MCheckStep; MStep 0] 1%Z).
  cbn in X. specialize (X _ _ eq_refl (conj eq_refl eq_refl) eq_refl).
  assert (Y : [(1, 7)] <> []) by discriminate. specialize (X Y). discriminate.
Qed.
