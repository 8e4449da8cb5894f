(** Lemmas about the expiring map. *)
From Verif Require Import Base ExpMapModel ExpMapSpec.
From Coq Require Import Sorted.

Section Proofs.
  Context {K V : Type} `{EqDec K}.
  Notation cell := (cell K). Notation emap := (emap K V). Notation emop := (emop K V).

  (** *** Cells *)
  Lemma find_cell_in i (l : list cell) c :
    find_cell i l = Some c -> In c l /\ c_id c = i.
  Proof.
    unfold find_cell; intros Hf. apply find_some in Hf as [Hin Hb].
    apply Nat.eqb_eq in Hb; auto.
  Qed.

  Lemma in_find_cell (l : list cell) c :
    NoDup (map c_id l) -> In c l -> find_cell (c_id c) l = Some c.
  Proof.
    unfold find_cell; induction l as [|a l IH]; cbn; [tauto|].
    intros Hnd Hin. inversion Hnd as [|x l' Hni Hnd']; subst.
    destruct Hin as [->|Hin].
    - rewrite Nat.eqb_refl; reflexivity.
    - destruct (Nat.eqb (c_id a) (c_id c)) eqn:E; [|auto].
      apply Nat.eqb_eq in E. exfalso; apply Hni. rewrite E. apply in_map; exact Hin.
  Qed.

  Lemma drop_cell_in i (l : list cell) c : In c (drop_cell i l) <-> In c l /\ c_id c <> i.
  Proof.
    unfold drop_cell. rewrite filter_In. split; intros [Hin Hb]; split; auto.
    - apply negb_true_iff, Nat.eqb_neq in Hb; exact Hb.
    - apply negb_true_iff, Nat.eqb_neq; exact Hb.
  Qed.

  Lemma nodup_drop i (l : list cell) : NoDup (map c_id l) -> NoDup (map c_id (drop_cell i l)).
  Proof. apply nodup_map_filter. Qed.

  (** *** Basic invariant: every map entry points to a live list node. *)
  Record Inv0 (s : emap) : Prop := {
    i_nd : NoDup (map c_id (e_list s));
    i_fresh : forall c, In c (e_list s) -> c_id c < e_next s;
    i_keys : NoDup (keys (e_map s));
    i_live : forall k e, aget k (e_map s) = Some e ->
             exists c, In c (e_list s) /\ c_id c = m_it e /\ c_key c = k }.

  Lemma inv0_new t : Inv0 (em_new t).
  Proof. constructor; cbn; try constructor; try tauto; discriminate. Qed.

  Lemma fresh_not_in s : Inv0 s -> ~ In (e_next s) (map c_id (e_list s)).
  Proof.
    intros HI Hin. apply in_map_iff in Hin as [c [Hc Hin]].
    apply (i_fresh _ HI) in Hin. lia.
  Qed.

  Lemma aget_snoc (k : K) (k' : K) (v : mentry V) m :
    aget k m = None -> aget k' (m ++ [(k, v)]) = if eqb k' k then Some v else aget k' m.
  Proof.
    intros Hn. induction m as [|[k2 v2] m IH]; cbn.
    - destruct (eqb k' k); reflexivity.
    - cbn in Hn. destruct (eqb k k2) eqn:E2; [discriminate|].
      destruct (eqb k' k2) eqn:E.
      + apply eqb_true in E; subst k2. rewrite eqb_sym, E2. reflexivity.
      + auto.
  Qed.

  Lemma keys_snoc (m : list (K * mentry V)) k e : keys (m ++ [(k, e)]) = keys m ++ [k].
  Proof. unfold keys; rewrite map_app; reflexivity. Qed.

  Lemma inv0_insert now k v s : Inv0 s -> Inv0 (em_insert now k v s).
  Proof.
    intros HI. pose proof (fresh_not_in s HI) as Hfr. destruct HI as [Hnd Hf Hk Hl].
    unfold em_insert; constructor; cbn.
    - rewrite map_app; cbn. apply nodup_snoc; assumption.
    - intros c Hin; apply in_app_iff in Hin as [Hin|[<-|[]]]; [apply Hf in Hin; lia|cbn; lia].
    - destruct (aget k (e_map s)) eqn:E; [assumption|].
      rewrite keys_snoc. apply nodup_snoc; [assumption|]. apply aget_none; exact E.
    - intros k' e He. destruct (aget k (e_map s)) eqn:E.
      + destruct (Hl k' e He) as [c [Hin Hc]]. exists c; split; [apply in_app_iff; auto|assumption].
      + rewrite aget_snoc in He by exact E. destruct (eqb k' k) eqn:Ek.
        * apply eqb_true in Ek; subst k'. inversion He; subst e; cbn.
          exists (Cell (e_next s) now k); cbn. split; [apply in_app_iff; right; left; reflexivity|auto].
        * destruct (Hl k' e He) as [c [Hin Hc]]. exists c; split; [apply in_app_iff; auto|assumption].
  Qed.

  Lemma inv0_find s k e : Inv0 s -> aget k (e_map s) = Some e ->
    exists c, find_cell (m_it e) (e_list s) = Some c /\ In c (e_list s) /\ c_id c = m_it e /\ c_key c = k.
  Proof.
    intros HI He. destruct (i_live s HI k e He) as [c [Hin [Hid Hk]]].
    exists c. split; [|auto]. rewrite <- Hid. apply in_find_cell; [apply (i_nd s HI)|assumption].
  Qed.

  (** Setting a value of an existing key without changing its iterator. *)
  Lemma inv0_setval s k e v : Inv0 s -> aget k (e_map s) = Some e ->
    Inv0 (EMap (e_list s) (aset k (MEntry v (m_it e)) (e_map s)) (e_timeout s) (e_next s)).
  Proof.
    intros HI He. destruct HI as [Hnd Hf Hk Hl]. constructor; cbn; auto.
    - apply nodup_aset; assumption.
    - intros k' e' He'. rewrite aget_aset in He'. destruct (eqb k' k) eqn:E.
      + apply eqb_true in E; subst. inversion He'; subst; cbn. apply Hl; assumption.
      + apply Hl; assumption.
  Qed.

  Lemma inv0_update now k s : Inv0 s ->
    exists s', em_update_timestamp now k s = Some s' /\ Inv0 s' /\ e_map s' = e_map s /\ e_timeout s' = e_timeout s.
  Proof.
    intros HI. unfold em_update_timestamp. destruct (aget k (e_map s)) as [e|] eqn:He.
    2:{ exists s; auto. }
    destruct (inv0_find s k e HI He) as [c [Hfc [Hin [Hid Hkey]]]]. rewrite Hfc.
    eexists; split; [reflexivity|]. split; [|split; reflexivity].
    destruct HI as [Hnd Hf Hk Hl]. constructor; cbn.
    - rewrite map_app; cbn. apply nodup_snoc; [apply nodup_drop; assumption|].
      intros Hx. apply in_map_iff in Hx as [c' [Hc' Hin']]. apply drop_cell_in in Hin' as [_ Hne]. congruence.
    - intros c' Hin'. apply in_app_iff in Hin' as [Hin'|[<-|[]]].
      + apply drop_cell_in in Hin' as [Hin' _]. auto.
      + cbn. apply Hf; assumption.
    - assumption.
    - intros k' e' He'. destruct (Hl k' e' He') as [c' [Hin' [Hid' Hk']]].
      destruct (Nat.eq_dec (c_id c') (m_it e)) as [Heq|Hne].
      + assert (c' = c) as ->.
        { assert (find_cell (c_id c') (e_list s) = Some c') as F by (apply in_find_cell; assumption).
          rewrite Heq in F. congruence. }
        exists (Cell (c_id c) now (c_key c)); cbn. split; [apply in_app_iff; right; left; reflexivity|auto].
      + exists c'. split; [|auto]. apply in_app_iff; left. apply drop_cell_in; auto.
  Qed.

  Lemma inv0_index dflt now k f s : Inv0 s -> exists s', em_index dflt now k f s = Some s' /\ Inv0 s'.
  Proof.
    intros HI. unfold em_index. destruct (aget k (e_map s)) as [e|] eqn:He.
    - destruct (inv0_update now k s HI) as [s1 [Hu [HI1 [Hm Ht]]]]. rewrite Hu.
      eexists; split; [reflexivity|]. apply inv0_setval; [assumption|]. rewrite Hm; assumption.
    - pose proof (inv0_insert now k dflt s HI) as HI1.
      eexists; split; [reflexivity|].
      apply (inv0_setval (em_insert now k dflt s) k (MEntry dflt (e_next s)) (f dflt) HI1).
      unfold em_insert; cbn. rewrite He. rewrite aget_snoc by exact He. rewrite eqb_refl. reflexivity.
  Qed.

  Lemma evict_out limit l : forall (m : list (K * mentry V)) out,
    let '(l', m', out') := em_evict limit l m out in
    exists pre, l = pre ++ l' /\ out' = out ++ map c_key pre /\
      (forall c, In c pre -> (c_ts c < limit)%Z) /\
      (match l' with [] => True | c :: _ => (limit <= c_ts c)%Z end) /\
      (forall k, aget k m' = if existsb (fun c => eqb k (c_key c)) pre then None else aget k m) /\
      (NoDup (keys m) -> NoDup (keys m')).
  Proof.
    induction l as [|c l IH]; intros m out; cbn.
    - exists []; cbn. repeat split; auto; try tauto. rewrite app_nil_r; reflexivity.
    - destruct (Z.ltb (c_ts c) limit) eqn:E.
      + specialize (IH (adel (c_key c) m) (out ++ [c_key c])).
        destruct (em_evict limit l (adel (c_key c) m) (out ++ [c_key c])) as [[l' m'] out'].
        destruct IH as [pre [Hl [Ho [Hpre [Hhd [Hget Hnd]]]]]].
        exists (c :: pre); cbn. repeat split.
        * congruence.
        * rewrite Ho, <- app_assoc; reflexivity.
        * intros c' [<-|Hin]; [apply Z.ltb_lt; assumption|auto].
        * assumption.
        * intros k. rewrite Hget, aget_adel.
          destruct (eqb k (c_key c)); cbn; [destruct (existsb _ _); reflexivity|reflexivity].
        * intros Hk. apply Hnd. apply nodup_adel; assumption.
      + exists []; cbn. repeat split; auto; try tauto.
        * rewrite app_nil_r; reflexivity.
        * apply Z.ltb_ge; assumption.
  Qed.

  Lemma existsb_key k (pre : list cell) :
    existsb (fun c => eqb k (c_key c)) pre = true <-> exists c, In c pre /\ c_key c = k.
  Proof.
    rewrite existsb_exists. split; intros [c [Hin Hb]]; exists c; split; auto.
    - apply eqb_true in Hb; auto.
    - subst k; apply eqb_refl.
  Qed.

  Lemma inv0_expire now s : Inv0 s -> Inv0 (fst (em_erase_expired now s)).
  Proof.
    intros HI. unfold em_erase_expired.
    pose proof (evict_out (now - e_timeout s) (e_list s) (e_map s) []) as Hev.
    destruct (em_evict _ _ _ _) as [[l' m'] out'].
    destruct Hev as [pre [Hl [_ [_ [_ [Hget Hndk]]]]]]. cbn.
    destruct HI as [Hnd Hf Hk Hlive].
    constructor; cbn.
    - rewrite Hl, map_app in Hnd. apply nodup_app_r in Hnd. exact Hnd.
    - intros c Hin. apply Hf. rewrite Hl. apply in_app_iff; auto.
    - apply Hndk; assumption.
    - intros k e He. rewrite Hget in He. destruct (existsb _ pre) eqn:Ex; [discriminate|].
      destruct (Hlive k e He) as [c [Hin [Hid Hck]]]. exists c. split; [|auto].
      rewrite Hl in Hin. apply in_app_iff in Hin as [Hin|Hin]; [|assumption].
      assert (existsb (fun c => eqb k (c_key c)) pre = true) as Ht
        by (apply existsb_key; exists c; auto).
      congruence.
  Qed.

  Lemma inv0_erase k s : Inv0 s -> exists s' b, em_erase k s = Some (s', b) /\ Inv0 s'.
  Proof.
    intros HI. unfold em_erase. destruct (aget k (e_map s)) as [e|] eqn:He.
    2:{ exists s, false; auto. }
    destruct (inv0_find s k e HI He) as [c [Hfc [Hin [Hid Hkey]]]]. rewrite Hfc.
    eexists; exists true; split; [reflexivity|].
    destruct HI as [Hnd Hf Hk Hl]. constructor; cbn.
    - apply nodup_drop; assumption.
    - intros c' Hin'. apply drop_cell_in in Hin' as [Hin' _]; auto.
    - apply nodup_adel; assumption.
    - intros k' e' He'. rewrite aget_adel in He'. destruct (eqb k' k) eqn:E; [discriminate|].
      destruct (Hl k' e' He') as [c' [Hin' [Hid' Hk']]]. exists c'. split; [|auto].
      apply drop_cell_in. split; [assumption|]. intros Heq.
      apply eqb_false in E. apply E.
      assert (find_cell (c_id c') (e_list s) = Some c') as F by (apply in_find_cell; assumption).
      rewrite Heq in F. congruence.
  Qed.

  Lemma inv0_step dflt o s : Inv0 s -> exists s', em_step dflt o s = Some s' /\ Inv0 s'.
  Proof.
    intros HI. destruct o as [now k f|now k v|k|now| |k|t]; cbn.
    - apply inv0_index; assumption.
    - eexists; split; [reflexivity|apply inv0_insert; assumption].
    - destruct (inv0_erase k s HI) as [s' [b [He HI']]]. rewrite He. eauto.
    - eexists; split; [reflexivity|apply inv0_expire; assumption].
    - eexists; split; [reflexivity|]. constructor; cbn; try constructor; try tauto; discriminate.
    - eauto.
    - eexists; split; [reflexivity|]. destruct HI; constructor; assumption.
  Qed.

  Lemma run_no_ub dflt os : forall s, Inv0 s -> exists s', em_run dflt os s = Some s' /\ Inv0 s'.
  Proof.
    induction os as [|o os IH]; cbn; intros s HI; [eauto|].
    destruct (inv0_step dflt o s HI) as [s1 [Hs HI1]]. rewrite Hs. auto.
  Qed.

  (** *** Full invariant without explicit inserts *)
  Definition sorted_ts (l : list cell) : Prop := StronglySorted (fun a b => (c_ts a <= c_ts b)%Z) l.

  Record Inv (t : Z) (s : emap) : Prop := {
    i_0 : Inv0 s;
    i_back : forall c, In c (e_list s) -> exists e, aget (c_key c) (e_map s) = Some e /\ m_it e = c_id c;
    i_sorted : sorted_ts (e_list s);
    i_time : forall c, In c (e_list s) -> (c_ts c <= t)%Z }.

  Definition abs (s : emap) : aspec :=
    ASpec (fun k => match aget k (e_map s) with
                    | Some e => match find_cell (m_it e) (e_list s) with
                                | Some c => Some (m_val e, c_ts c)
                                | None => None
                                end
                    | None => None
                    end) (e_timeout s).

  Definition aequiv (a b : @aspec K V) : Prop :=
    (forall k, a_list a k = a_list b k) /\ a_timeout a = a_timeout b.

  Lemma spec_step_equiv dflt o a b : aequiv a b -> aequiv (spec_step dflt o a) (spec_step dflt o b).
  Proof.
    intros [Hl Ht]. destruct o as [now k f|now k v|k|now| |k|t]; split; cbn; auto; intros k'; unfold upd.
    - rewrite !Hl; reflexivity.
    - rewrite !Hl. destruct (a_list b k) as [[w tw]|]; destruct (eqb k' k); auto.
    - rewrite Hl; reflexivity.
    - rewrite Hl, Ht; reflexivity.
  Qed.

  Lemma sorted_snoc l c : sorted_ts l -> (forall x, In x l -> (c_ts x <= c_ts c)%Z) -> sorted_ts (l ++ [c]).
  Proof.
    unfold sorted_ts; induction l as [|a l IH]; cbn; intros Hs Hle.
    - constructor; constructor.
    - inversion Hs as [|x l' Hs' Hall]; subst. constructor.
      + apply IH; [assumption|intros; apply Hle; right; assumption].
      + apply Forall_app; split; [assumption|]. constructor; [apply Hle; left; reflexivity|constructor].
  Qed.

  Lemma sorted_filter f l : sorted_ts l -> sorted_ts (filter f l).
  Proof.
    unfold sorted_ts; induction l as [|a l IH]; cbn; intros Hs; [constructor|].
    inversion Hs as [|x l' Hs' Hall]; subst. destruct (f a); [|auto].
    constructor; [auto|]. rewrite Forall_forall in *. intros x Hx. apply filter_In in Hx as [Hx _]. auto.
  Qed.

  Lemma sorted_app_r l1 l2 : sorted_ts (l1 ++ l2) -> sorted_ts l2.
  Proof.
    unfold sorted_ts; induction l1 as [|a l1 IH]; cbn; [auto|]. intros Hs; inversion Hs; auto.
  Qed.

  Lemma find_cell_snoc_new i (l : list cell) c :
    find_cell i (l ++ [c]) = match find_cell i l with Some x => Some x | None => if Nat.eqb (c_id c) i then Some c else None end.
  Proof.
    unfold find_cell; induction l as [|a l IH]; cbn; [reflexivity|].
    destruct (Nat.eqb (c_id a) i); auto.
  Qed.

  Lemma find_cell_none i (l : list cell) : ~ In i (map c_id l) -> find_cell i l = None.
  Proof.
    intros Hn. destruct (find_cell i l) as [c|] eqn:E; [|reflexivity].
    apply find_cell_in in E as [Hin <-]. exfalso; apply Hn; apply in_map; exact Hin.
  Qed.

  Lemma find_cell_drop i j (l : list cell) :
    find_cell i (drop_cell j l) = if Nat.eqb i j then None else find_cell i l.
  Proof.
    unfold find_cell, drop_cell; induction l as [|a l IH]; cbn.
    - destruct (Nat.eqb i j); reflexivity.
    - destruct (Nat.eqb (c_id a) j) eqn:Ej; cbn.
      + rewrite IH. destruct (Nat.eqb i j) eqn:Eij; [reflexivity|].
        apply Nat.eqb_eq in Ej. apply Nat.eqb_neq in Eij.
        destruct (Nat.eqb (c_id a) i) eqn:Ei; [apply Nat.eqb_eq in Ei; lia|reflexivity].
      + destruct (Nat.eqb (c_id a) i) eqn:Ei; [|assumption].
        apply Nat.eqb_eq in Ei. apply Nat.eqb_neq in Ej.
        destruct (Nat.eqb i j) eqn:Eij; [apply Nat.eqb_eq in Eij; lia|reflexivity].
  Qed.

  Lemma inv_it_inj t s k1 k2 e1 e2 : Inv t s ->
    aget k1 (e_map s) = Some e1 -> aget k2 (e_map s) = Some e2 -> m_it e1 = m_it e2 -> k1 = k2.
  Proof.
    intros HI H1 H2 Heq.
    destruct (inv0_find s k1 e1 (i_0 _ _ HI) H1) as [c1 [F1 [_ [_ K1]]]].
    destruct (inv0_find s k2 e2 (i_0 _ _ HI) H2) as [c2 [F2 [_ [_ K2]]]].
    rewrite Heq in F1. congruence.
  Qed.

  Lemma abs_in t s k e : Inv t s -> aget k (e_map s) = Some e ->
    exists c, find_cell (m_it e) (e_list s) = Some c /\ In c (e_list s) /\ c_id c = m_it e /\ c_key c = k
              /\ a_list (abs s) k = Some (m_val e, c_ts c).
  Proof.
    intros HI He. destruct (inv0_find s k e (i_0 _ _ HI) He) as [c [F [Hin [Hid Hk]]]].
    exists c. repeat split; auto. cbn. rewrite He, F. reflexivity.
  Qed.

  Lemma index_spec dflt t now k f s : Inv t s -> (t <= now)%Z ->
    exists s', em_index dflt now k f s = Some s' /\ Inv now s' /\
               aequiv (abs s') (spec_step dflt (OIndex now k f) (abs s)).
  Proof.
    intros HI Hle.
    destruct (inv0_index dflt now k f s (i_0 _ _ HI)) as [s' [Hs HI0']].
    exists s'; split; [assumption|].
    unfold em_index in Hs. destruct (aget k (e_map s)) as [e|] eqn:He.
    - destruct (abs_in t s k e HI He) as [c [F [Hin [Hid [Hk Ha]]]]].
      unfold em_update_timestamp in Hs. rewrite He, F in Hs.
      injection Hs as Hs'. cbn in Hs'. subst s'. split.
      + constructor; cbn.
        * exact HI0'.
        * intros c' Hin'. apply in_app_iff in Hin' as [Hin'|[<-|[]]].
          -- apply drop_cell_in in Hin' as [Hin' Hne].
             destruct (i_back _ _ HI c' Hin') as [e' [He' Hit']].
             rewrite aget_aset. destruct (eqb (c_key c') k) eqn:E.
             ++ apply eqb_true in E. rewrite E, He in He'. inversion He'; subst e'.
                exfalso; congruence.
             ++ exists e'; auto.
          -- cbn. rewrite Hk, aget_aset, eqb_refl. eexists; split; [reflexivity|cbn; congruence].
        * apply sorted_snoc.
          -- apply sorted_filter. apply (i_sorted _ _ HI).
          -- intros x Hx. apply drop_cell_in in Hx as [Hx _]. apply (i_time _ _ HI) in Hx. cbn; lia.
        * intros x Hx. apply in_app_iff in Hx as [Hx|[<-|[]]].
          -- apply drop_cell_in in Hx as [Hx _]. apply (i_time _ _ HI) in Hx. lia.
          -- cbn; lia.
      + split; [|reflexivity]. intros k'. cbn [abs a_list e_map e_list]. unfold spec_step. cbn [a_list]. unfold upd.
        rewrite aget_aset. destruct (eqb k' k) eqn:E.
        * apply eqb_true in E; subst k'. rewrite Ha. cbn [m_it m_val].
          rewrite find_cell_snoc_new, find_cell_drop, Nat.eqb_refl. cbn.
          replace (Nat.eqb (c_id c) (m_it e)) with true by (symmetry; apply Nat.eqb_eq; assumption).
          reflexivity.
        * cbn [abs a_list]. destruct (aget k' (e_map s)) as [e'|] eqn:He'; [|reflexivity].
          rewrite find_cell_snoc_new, find_cell_drop. cbn.
          destruct (Nat.eqb (m_it e') (m_it e)) eqn:Eit.
          { exfalso. apply Nat.eqb_eq in Eit. apply eqb_false in E. apply E.
            eapply inv_it_inj; eauto. }
          destruct (inv0_find s k' e' (i_0 _ _ HI) He') as [c' [F' _]]. rewrite F'. reflexivity.
    - injection Hs as Hs'. cbn in Hs'. rewrite He in Hs'.
      pose proof (fresh_not_in s (i_0 _ _ HI)) as Hfr.
      subst s'. split.
      + constructor; cbn.
        * exact HI0'.
        * intros c' Hin'. apply in_app_iff in Hin' as [Hin'|[<-|[]]].
          -- destruct (i_back _ _ HI c' Hin') as [e' [He' Hit']].
             rewrite aget_aset. destruct (eqb (c_key c') k) eqn:E.
             ++ apply eqb_true in E. congruence.
             ++ rewrite aget_snoc by exact He. rewrite E. eauto.
          -- cbn. rewrite aget_aset, eqb_refl. eexists; split; [reflexivity|reflexivity].
        * apply sorted_snoc; [apply (i_sorted _ _ HI)|].
          intros x Hx. apply (i_time _ _ HI) in Hx. cbn; lia.
        * intros x Hx. apply in_app_iff in Hx as [Hx|[<-|[]]]; [apply (i_time _ _ HI) in Hx; lia|cbn; lia].
      + split; [|reflexivity]. intros k'. cbn [abs a_list e_map e_list spec_step]. unfold upd. cbn [abs a_list].
        rewrite aget_aset. destruct (eqb k' k) eqn:E.
        * rewrite He. cbn [m_it m_val]. rewrite find_cell_snoc_new, (find_cell_none _ _ Hfr). cbn.
          rewrite Nat.eqb_refl. reflexivity.
        * rewrite aget_snoc by exact He. rewrite E.
          destruct (aget k' (e_map s)) as [e'|] eqn:He'; [|reflexivity].
          rewrite find_cell_snoc_new.
          destruct (inv0_find s k' e' (i_0 _ _ HI) He') as [c' [F' _]]. rewrite F'. reflexivity.
  Qed.

  Lemma erase_spec dflt t k s : Inv t s ->
    exists s' b, em_erase k s = Some (s', b) /\ Inv t s' /\
               aequiv (abs s') (spec_step dflt (OErase k) (abs s)) /\
               b = match a_list (abs s) k with Some _ => true | None => false end.
  Proof.
    intros HI. destruct (inv0_erase k s (i_0 _ _ HI)) as [s' [b [Hs HI0']]].
    exists s', b; split; [assumption|].
    unfold em_erase in Hs. destruct (aget k (e_map s)) as [e|] eqn:He.
    - destruct (abs_in t s k e HI He) as [c [F [Hin [Hid [Hk Ha]]]]].
      rewrite F in Hs. injection Hs as Hs' Hb. subst b s'.
      split; [|split].
      + constructor; cbn.
        * exact HI0'.
        * intros c' Hin'. apply drop_cell_in in Hin' as [Hin' Hne].
          destruct (i_back _ _ HI c' Hin') as [e' [He' Hit']].
          rewrite aget_adel. destruct (eqb (c_key c') k) eqn:E; [|eauto].
          apply eqb_true in E. rewrite E, He in He'. inversion He'; subst e'. exfalso; congruence.
        * apply sorted_filter, (i_sorted _ _ HI).
        * intros x Hx. apply drop_cell_in in Hx as [Hx _]. apply (i_time _ _ HI); assumption.
      + split; [|reflexivity]. intros k'. cbn [abs a_list e_map e_list spec_step]. unfold upd. cbn [abs a_list].
        rewrite aget_adel. destruct (eqb k' k) eqn:E; [reflexivity|].
        destruct (aget k' (e_map s)) as [e'|] eqn:He'; [|reflexivity].
        rewrite find_cell_drop. destruct (Nat.eqb (m_it e') (m_it e)) eqn:Eit; [|reflexivity].
        exfalso. apply Nat.eqb_eq in Eit. apply eqb_false in E. apply E. eapply inv_it_inj; eauto.
      + rewrite Ha. reflexivity.
    - inversion Hs; subst s' b. split; [assumption|]. split.
      + split; [|reflexivity]. intros k'. cbn. unfold upd. destruct (eqb k' k) eqn:E; [|reflexivity].
        apply eqb_true in E; subst k'. rewrite He; reflexivity.
      + cbn. rewrite He. reflexivity.
  Qed.

  Lemma expire_spec dflt t now s : Inv t s -> (t <= now)%Z ->
    let '(s', out) := em_erase_expired now s in
    Inv now s' /\ aequiv (abs s') (spec_step dflt (OExpire now) (abs s)) /\
    NoDup out /\
    (forall k, In k out <-> exists v tk, a_list (abs s) k = Some (v, tk) /\ (tk < now - e_timeout s)%Z).
  Proof.
    intros HI Hle. pose proof (inv0_expire now s (i_0 _ _ HI)) as HI0'.
    unfold em_erase_expired in *.
    pose proof (evict_out (now - e_timeout s) (e_list s) (e_map s) []) as Hev.
    destruct (em_evict _ _ _ _) as [[l' m'] out']. cbn [fst] in HI0'.
    destruct Hev as [pre [Hl [Ho [Hpre [Hhd [Hget Hndk]]]]]].
    pose proof (i_sorted _ _ HI) as Hsrt. rewrite Hl in Hsrt.
    assert (Hrest : forall c, In c l' -> (now - e_timeout s <= c_ts c)%Z).
    { intros c Hc. apply sorted_app_r in Hsrt. destruct l' as [|c0 l'']; [destruct Hc|].
      inversion Hsrt as [|x l0 Hs' Hall]; subst. destruct Hc as [<-|Hc]; [assumption|].
      rewrite Forall_forall in Hall. specialize (Hall c Hc). lia. }
    assert (Hkey : forall k e c, aget k (e_map s) = Some e -> find_cell (m_it e) (e_list s) = Some c ->
                   (existsb (fun c => eqb k (c_key c)) pre = true <-> (c_ts c < now - e_timeout s)%Z)).
    { intros k e c He F. apply find_cell_in in F as [Hin Hid].
      destruct (i_live _ (i_0 _ _ HI) k e He) as [c0 [Hin0 [Hid0 Hk0]]].
      assert (c0 = c) as ->.
      { pose proof (in_find_cell _ _ (i_nd _ (i_0 _ _ HI)) Hin) as F1.
        pose proof (in_find_cell _ _ (i_nd _ (i_0 _ _ HI)) Hin0) as F2.
        rewrite Hid in F1. rewrite Hid0 in F2. congruence. }
      rewrite existsb_key. split.
      - intros [c' [Hin' Hk']].
        assert (In c' (e_list s)) as Hin'' by (rewrite Hl; apply in_app_iff; auto).
        destruct (i_back _ _ HI c' Hin'') as [e' [He' Hit']]. rewrite Hk', He in He'. inversion He'; subst e'.
        assert (c' = c) as <-.
        { pose proof (in_find_cell _ _ (i_nd _ (i_0 _ _ HI)) Hin) as F1.
          pose proof (in_find_cell _ _ (i_nd _ (i_0 _ _ HI)) Hin'') as F2.
          rewrite Hid in F1. rewrite <- Hit' in F2. congruence. }
        apply Hpre; assumption.
      - intros Hlt. exists c; split; [|assumption].
        rewrite Hl in Hin. apply in_app_iff in Hin as [Hin|Hin]; [assumption|].
        apply Hrest in Hin. lia. }
    split; [constructor|split; [split; [|reflexivity]|split; [|intros k; split]]].
    - exact HI0'.
    - cbn. intros c Hc. assert (In c (e_list s)) as Hc' by (rewrite Hl; apply in_app_iff; auto).
      destruct (i_back _ _ HI c Hc') as [e [He Hit]]. exists e. split; [|assumption].
      rewrite Hget. destruct (existsb _ pre) eqn:Ex; [|assumption].
      exfalso. destruct (inv0_find s (c_key c) e (i_0 _ _ HI) He) as [c2 [F2 _]].
      apply (Hkey _ _ _ He F2) in Ex.
      rewrite Hit in F2. rewrite (in_find_cell _ _ (i_nd _ (i_0 _ _ HI)) Hc') in F2. inversion F2; subst c2.
      apply Hrest in Hc. lia.
    - cbn. apply sorted_app_r in Hsrt. exact Hsrt.
    - cbn. intros c Hc. assert (In c (e_list s)) as Hc' by (rewrite Hl; apply in_app_iff; auto).
      apply (i_time _ _ HI) in Hc'. lia.
    - intros k. cbn [abs a_list e_map e_list spec_step a_timeout]. rewrite Hget.
      destruct (aget k (e_map s)) as [e|] eqn:He.
      2:{ destruct (existsb _ pre); reflexivity. }
      destruct (inv0_find s k e (i_0 _ _ HI) He) as [c [F [Hin [Hid Hk]]]]. rewrite F.
      pose proof (Hkey k e c He F) as Hiff.
      destruct (existsb _ pre) eqn:Ex.
      + destruct (Z.ltb_spec (c_ts c) (now - e_timeout s)); [reflexivity|]. exfalso. apply proj1 in Hiff. specialize (Hiff eq_refl). lia.
      + destruct (Z.ltb_spec (c_ts c) (now - e_timeout s)) as [Hlt|Hge].
        * apply Hiff in Hlt. discriminate.
        * assert (In c l') as Hcl.
          { rewrite Hl in Hin. apply in_app_iff in Hin as [Hin|Hin]; [|assumption].
            apply Hpre in Hin. lia. }
          rewrite <- Hid. rewrite (in_find_cell l' c); [reflexivity| |assumption].
          apply (i_nd _ HI0').
    - rewrite Ho; cbn. pose proof (i_nd _ (i_0 _ _ HI)) as Hnd. rewrite Hl, map_app in Hnd.
      assert (Hin_s : forall c, In c pre -> In c (e_list s)) by (intros c Hc; rewrite Hl; apply in_app_iff; auto).
      apply nodup_app_l in Hnd. clear -Hnd Hin_s HI.
      induction pre as [|c pre IH]; cbn; [constructor|].
      cbn in Hnd. inversion Hnd as [|x l0 Hni Hnd']; subst. constructor.
      + intros Hin. apply in_map_iff in Hin as [c' [Hk' Hc']].
        destruct (i_back _ _ HI c (Hin_s c (or_introl eq_refl))) as [e [He Hit]].
        destruct (i_back _ _ HI c' (Hin_s c' (or_intror Hc'))) as [e' [He' Hit']].
        rewrite Hk', He in He'. inversion He'; subst e'. apply Hni. rewrite <- Hit, Hit'.
        apply in_map; exact Hc'.
      + apply IH; [assumption|intros; apply Hin_s; right; assumption].
    - rewrite Ho; cbn. intros Hin. apply in_map_iff in Hin as [c [Hk Hc]].
      assert (In c (e_list s)) as Hc' by (rewrite Hl; apply in_app_iff; auto).
      destruct (i_back _ _ HI c Hc') as [e [He Hit]].
      exists (m_val e), (c_ts c). split; [|apply Hpre; assumption].
      rewrite Hk in He. rewrite He, Hit, (in_find_cell _ _ (i_nd _ (i_0 _ _ HI)) Hc'). reflexivity.
    - rewrite Ho; cbn. intros [v [tk [Ha Hlt]]].
      destruct (aget k (e_map s)) as [e|] eqn:He; [|discriminate].
      destruct (find_cell (m_it e) (e_list s)) as [c|] eqn:F; [|discriminate].
      inversion Ha; subst v tk. apply (Hkey k e c He F) in Hlt.
      apply existsb_key in Hlt as [c' [Hc' Hk']]. rewrite <- Hk'. apply in_map; exact Hc'.
  Qed.

  Lemma inv_weaken t t' s : Inv t s -> (t <= t')%Z -> Inv t' s.
  Proof.
    intros [H0 Hb Hs Ht] Hle. constructor; auto. intros c Hc. specialize (Ht c Hc). lia.
  Qed.

  Lemma aequiv_refl a : aequiv a a.
  Proof. split; auto. Qed.
  Lemma aequiv_trans a b c : aequiv a b -> aequiv b c -> aequiv a c.
  Proof. intros [H1 H2] [H3 H4]; split; [intros k; rewrite H1; auto|congruence]. Qed.

  Lemma spec_run_equiv dflt os : forall a b, aequiv a b -> aequiv (spec_run dflt os a) (spec_run dflt os b).
  Proof.
    induction os as [|o os IH]; cbn; intros a b Hab; [assumption|].
    apply IH. apply spec_step_equiv; assumption.
  Qed.

  Lemma inv_step dflt o t s : Inv t s -> (forall now k v, o <> OInsert now k v) ->
    (match op_time o with Some now => (t <= now)%Z | None => True end) ->
    exists s', em_step dflt o s = Some s' /\
      Inv (match op_time o with Some now => now | None => t end) s' /\
      aequiv (abs s') (spec_step dflt o (abs s)).
  Proof.
    intros HI Hni Ht. destruct o as [now k f|now k v|k|now| |k|tt]; cbn in *.
    - apply index_spec with (t := t); assumption.
    - exfalso; eapply Hni; reflexivity.
    - destruct (erase_spec dflt t k s HI) as [s' [b [He [HI' [Ha _]]]]]. rewrite He. eauto.
    - pose proof (expire_spec dflt t now s HI Ht) as Hex.
      destruct (em_erase_expired now s) as [s' out]. destruct Hex as [HI' [Ha _]].
      eexists; split; [reflexivity|]. auto.
    - eexists; split; [reflexivity|]. split; [|split; [intros; reflexivity|reflexivity]].
      constructor; cbn.
      + constructor; cbn; try constructor; try tauto; discriminate.
      + tauto.
      + constructor.
      + tauto.
    - eexists; split; [reflexivity|]. split; [assumption|apply aequiv_refl].
    - eexists; split; [reflexivity|]. split; [|split; [intros; reflexivity|reflexivity]].
      destruct HI as [[H1 H2 H3 H4] Hb Hs Htm]. constructor; auto. constructor; auto.
  Qed.

  Lemma run_refines dflt os : forall t s, Inv t s -> no_insert os -> clock_from t os ->
    exists s' t', em_run dflt os s = Some s' /\ Inv t' s' /\ aequiv (abs s') (spec_run dflt os (abs s)).
  Proof.
    induction os as [|o os IH]; cbn; intros t s HI Hni Hck.
    - exists s, t. split; [reflexivity|split; [assumption|apply aequiv_refl]].
    - destruct (inv_step dflt o t s HI) as [s1 [Hs [HI1 Ha]]].
      + intros now k v E. apply (Hni now k v). left; auto.
      + destruct (op_time o); tauto.
      + rewrite Hs.
        destruct (IH _ s1 HI1) as [s' [t' [Hr [HI' Ha']]]].
        * intros now k v Hin; apply (Hni now k v); right; assumption.
        * destruct (op_time o); tauto.
        * exists s', t'. split; [assumption|]. split; [assumption|].
          eapply aequiv_trans; [exact Ha'|]. apply spec_run_equiv; exact Ha.
  Qed.

  Lemma inv_new t0 timeout : Inv t0 (em_new timeout).
  Proof. constructor; cbn; [apply inv0_new|tauto|constructor|tauto]. Qed.

  Lemma em_find_abs t s k : Inv t s ->
    em_find k s = match a_list (abs s) k with Some (v, _) => Some v | None => None end.
  Proof.
    intros HI. unfold em_find; cbn. destruct (aget k (e_map s)) as [e|] eqn:He; [|reflexivity].
    destruct (inv0_find s k e (i_0 _ _ HI) He) as [c [F _]]. rewrite F. reflexivity.
  Qed.

  Lemma contents_find s k v : Inv0 s -> (In (k, v) (em_contents s) <-> em_find k s = Some v).
  Proof.
    intros HI. unfold em_contents, em_find. rewrite in_map_iff. split.
    - intros [[k' e] [Heq Hin]]. cbn in Heq. inversion Heq; subst.
      rewrite (in_aget k e (e_map s) (i_keys _ HI) Hin). reflexivity.
    - destruct (aget k (e_map s)) as [e|] eqn:He; [|discriminate]. intros Hv; inversion Hv; subst.
      exists (k, e); split; [reflexivity|]. apply aget_in; assumption.
  Qed.

  Lemma contents_nodup s : Inv0 s -> NoDup (map fst (em_contents s)).
  Proof. intros HI. unfold em_contents. rewrite map_map. cbn. apply (i_keys _ HI). Qed.

  (** Main refinement, seen through find. *)
  Lemma find_refines (dflt : V) (os : list emop) t0 timeout : no_insert os -> clock_from t0 os ->
    exists s, em_run dflt os (em_new timeout) = Some s /\
      forall k, em_find k s = match a_list (spec_run dflt os (spec_new timeout)) k with Some (v, _) => Some v | None => None end.
  Proof.
    intros Hni Hck. destruct (run_refines dflt os t0 (em_new timeout) (inv_new t0 timeout) Hni Hck) as [s [t' [Hr [HI Ha]]]].
    exists s; split; [assumption|]. intros k. rewrite (em_find_abs t' s k HI).
    destruct Ha as [Ha _]. rewrite Ha. reflexivity.
  Qed.

  (** *** Consequences in terms of the history *)
  Lemma spec_untouched (dflt : V) (h2 : list emop) : forall (a : @aspec K V) k v t,
    a_list a k = Some (v, t) ->
    (forall o, In o h2 -> touches k o = false) ->
    (forall now, In (OExpire now) h2 -> (now - a_timeout a <= t)%Z) ->
    (forall tt, ~ In (OSetExpiration tt) h2) ->
    a_list (spec_run dflt h2 a) k = Some (v, t).
  Proof.
    induction h2 as [|o h2 IH]; cbn; intros a k v t Ha Hto Hex Hse; [assumption|].
    assert (Htk := Hto o (or_introl eq_refl)).
    assert (a_timeout (spec_step dflt o a) = a_timeout a) as Htmo.
    { destruct o; cbn; try reflexivity. exfalso; eapply Hse; left; reflexivity. }
    apply IH.
    - destruct o as [now k' f|now k' v'|k'|now| |k'|tt]; cbn in *; unfold upd.
      + rewrite Htk; assumption.
      + destruct (a_list a k') as [[w tw]|]; rewrite Htk; assumption.
      + rewrite Htk; assumption.
      + rewrite Ha. destruct (Z.ltb_spec t (now - a_timeout a)); [|reflexivity].
        specialize (Hex now (or_introl eq_refl)). lia.
      + discriminate.
      + assumption.
      + assumption.
    - intros o' Hin; apply Hto; right; assumption.
    - intros now Hin. rewrite Htmo. apply Hex; right; assumption.
    - intros tt Hin; eapply Hse; right; eassumption.
  Qed.

  Lemma spec_timeout (dflt : V) (os : list emop) : forall (a : @aspec K V), (forall tt, ~ In (OSetExpiration tt) os) ->
    a_timeout (spec_run dflt os a) = a_timeout a.
  Proof.
    induction os as [|o os IH]; cbn; intros a Hse; [reflexivity|].
    change (a_timeout (spec_run dflt os (spec_step dflt o a)) = a_timeout a).
    rewrite IH; [|intros tt Hin; eapply Hse; right; eassumption].
    destruct o; cbn; try reflexivity. exfalso; eapply Hse; left; reflexivity.
  Qed.

  Lemma no_insert_app (a b : list emop) : no_insert (a ++ b) -> no_insert a /\ no_insert b.
  Proof.
    intros Hn; split; intros now k v Hin; apply (Hn now k v); apply in_app_iff; auto.
  Qed.

  Lemma alive_lemma (dflt : V) (h1 h2 : list emop) t0 timeout k f t :
    let h := h1 ++ OIndex t k f :: h2 in
    no_insert h -> clock_from t0 h -> (forall tt, ~ In (OSetExpiration tt) h) ->
    (forall o, In o h2 -> touches k o = false) ->
    (forall now, In (OExpire now) h2 -> (now - timeout <= t)%Z) ->
    exists s s1, em_run dflt h (em_new timeout) = Some s /\ em_run dflt h1 (em_new timeout) = Some s1 /\
       em_find k s = Some (f (match em_find k s1 with Some v => v | None => dflt end)).
  Proof.
    intros h Hni Hck Hse Hto Hex.
    destruct (find_refines dflt h t0 timeout Hni Hck) as [s [Hr Hf]].
    assert (Hck1 : clock_from t0 h1).
    { clear -Hck. unfold h in Hck. revert t0 Hck. induction h1 as [|o h1 IH]; cbn; intros t0 Hck; [exact I|].
      destruct (op_time o); [destruct Hck; split; auto|auto]. }
    destruct (find_refines dflt h1 t0 timeout (proj1 (no_insert_app _ _ Hni)) Hck1) as [s1 [Hr1 Hf1]].
    exists s, s1. split; [assumption|]. split; [assumption|].
    rewrite Hf, Hf1. unfold h, spec_run. rewrite fold_left_app. cbn [fold_left].
    fold (spec_run dflt h1 (spec_new timeout)).
    fold (spec_run dflt h2 (spec_step dflt (OIndex t k f) (spec_run dflt h1 (spec_new timeout)))).
    erewrite spec_untouched with (t := t); [reflexivity| | | |].
    - cbn. unfold upd. rewrite eqb_refl.
      destruct (a_list (spec_run dflt h1 (spec_new timeout)) k) as [[v tv]|]; reflexivity.
    - assumption.
    - intros now Hin. cbn. rewrite spec_timeout.
      + cbn. apply Hex; assumption.
      + intros tt Hx; apply (Hse tt). unfold h; apply in_app_iff; auto.
    - intros tt Hx; apply (Hse tt). unfold h; apply in_app_iff; right; right; assumption.
  Qed.

  (** Everything listed comes from an announcement that nothing has ended since. *)
  Lemma spec_origin (dflt : V) (os : list emop) : forall timeout k v t, no_insert os ->
    a_list (spec_run dflt os (spec_new timeout)) k = Some (v, t) ->
    exists h1 f h2, os = h1 ++ OIndex t k f :: h2 /\ (forall o, In o h2 -> touches k o = false).
  Proof.
    induction os as [|o os IH] using rev_ind; intros timeout k v t Hni Ha; [discriminate|].
    destruct (no_insert_app _ _ Hni) as [Hni1 Hni2].
    unfold spec_run in Ha. rewrite fold_left_app in Ha. cbn [fold_left] in Ha.
    fold (spec_run dflt os (spec_new timeout)) in Ha.
    set (a := spec_run dflt os (spec_new timeout)) in *.
    assert (Hkeep : touches k o = false -> a_list a k = Some (v, t) ->
      exists h1 f h2, os ++ [o] = h1 ++ OIndex t k f :: h2 /\ (forall o, In o h2 -> touches k o = false)).
    { intros Hto Ha'. destruct (IH timeout k v t Hni1 Ha') as [h1 [f [h2 [-> Hh2]]]].
      exists h1, f, (h2 ++ [o]). split; [rewrite <- app_assoc; reflexivity|].
      intros o' Hin. apply in_app_iff in Hin as [Hin|[<-|[]]]; auto. }
    destruct o as [now k' f|now k' v'|k'|now| |k'|tt]; cbn in Ha.
    - unfold upd in Ha. destruct (eqb k k') eqn:E.
      + inversion Ha; subst. apply eqb_true in E; subst k'.
        exists os, f, []. split; [reflexivity|intros ? []].
      + apply Hkeep; [exact E|exact Ha].
    - exfalso. apply (Hni2 now k' v'). left; reflexivity.
    - unfold upd in Ha. destruct (eqb k k') eqn:E; [discriminate|]. apply Hkeep; [exact E|exact Ha].
    - destruct (a_list a k) as [[w tw]|] eqn:Ea; [|discriminate].
      destruct (Z.ltb tw (now - a_timeout a)); [discriminate|]. inversion Ha; subst. apply Hkeep; auto.
    - discriminate.
    - apply Hkeep; [reflexivity|exact Ha].
    - apply Hkeep; [reflexivity|exact Ha].
  Qed.

  Lemma gone_lemma (dflt : V) (os : list emop) t0 timeout now :
    no_insert os -> clock_from t0 (os ++ [OExpire now]) -> (forall tt, ~ In (OSetExpiration tt) os) ->
    exists s, em_run dflt (os ++ [OExpire now]) (em_new timeout) = Some s /\
      forall k v, em_find k s = Some v ->
        exists h1 t f h2, os = h1 ++ OIndex t k f :: h2 /\ (forall o, In o h2 -> touches k o = false) /\
                          (now - timeout <= t)%Z.
  Proof.
    intros Hni Hck Hse.
    assert (Hni' : no_insert (os ++ [OExpire now])).
    { intros n k v Hin. apply in_app_iff in Hin as [Hin|[Hin|[]]]; [eapply Hni; eassumption|discriminate]. }
    destruct (find_refines dflt _ t0 timeout Hni' Hck) as [s [Hr Hf]].
    exists s; split; [assumption|]. intros k v Hv. rewrite Hf in Hv.
    unfold spec_run in Hv. rewrite fold_left_app in Hv. cbn [fold_left] in Hv.
    fold (spec_run dflt os (spec_new timeout)) in Hv. cbn in Hv.
    destruct (a_list (spec_run dflt os (spec_new timeout)) k) as [[w tw]|] eqn:Ea; [|discriminate].
    rewrite spec_timeout in Hv by assumption. cbn in Hv.
    destruct (Z.ltb_spec tw (now - timeout)) as [Hlt|Hge]; [discriminate|].
    destruct (spec_origin dflt os timeout k w tw Hni Ea) as [h1 [f [h2 [He Hh]]]].
    exists h1, tw, f, h2. auto.
  Qed.

  (** The keys reported as purged are exactly the ones that expired. *)
  Lemma expired_keys_lemma (dflt : V) (os : list emop) t0 timeout now :
    no_insert os -> clock_from t0 (os ++ [OExpire now]) ->
    exists s s' out, em_run dflt os (em_new timeout) = Some s /\ em_erase_expired now s = (s', out) /\
      NoDup out /\ forall k, In k out <-> (em_find k s <> None /\ em_find k s' = None).
  Proof.
    intros Hni Hck.
    assert (Hck1 : clock_from t0 os /\ forall t s, Inv t s -> True) by
      (split; [|auto]; clear -Hck; revert t0 Hck; induction os as [|o os IH]; cbn; intros t0 Hck; [exact I|];
       destruct (op_time o); [destruct Hck; split; auto|auto]).
    destruct Hck1 as [Hck1 _].
    assert (Hrun : forall os t0 s, Inv t0 s -> no_insert os -> clock_from t0 (os ++ [OExpire now]) ->
      exists s' t', em_run dflt os s = Some s' /\ Inv t' s' /\ (t' <= now)%Z).
    { clear. induction os as [|o os IH]; cbn; intros t0 s HI Hni Hck.
      - exists s, t0. tauto.
      - destruct (inv_step dflt o t0 s HI) as [s1 [Hs [HI1 _]]].
        + intros n k v E. apply (Hni n k v). left; auto.
        + destruct (op_time o); tauto.
        + rewrite Hs. apply (IH _ s1 HI1).
          * intros n k v Hin; apply (Hni n k v); right; assumption.
          * destruct (op_time o); tauto. }
    destruct (Hrun os t0 (em_new timeout) (inv_new t0 timeout) Hni Hck) as [s [t' [Hr [HI Hle]]]].
    pose proof (expire_spec dflt t' now s HI Hle) as Hex.
    destruct (em_erase_expired now s) as [s' out] eqn:Ee.
    destruct Hex as [HI' [Ha [Hnd Hout]]].
    exists s, s', out. split; [assumption|split; [assumption|split; [assumption|]]].
    intros k; split; [intros Hk0; split|].
    - apply Hout in Hk0 as [v [tk [Hab _]]]. rewrite (em_find_abs t' s k HI), Hab. discriminate.
    - apply Hout in Hk0 as [v [tk [Hab Hlt]]]. rewrite (em_find_abs now s' k HI').
      destruct Ha as [Ha _]. rewrite Ha. cbn [spec_step a_list]. rewrite Hab. cbn [abs a_timeout].
      destruct (Z.ltb_spec tk (now - e_timeout s)); [reflexivity|lia].
    - intros [Hs1 Hs2]. apply Hout. rewrite (em_find_abs t' s k HI) in Hs1.
      rewrite (em_find_abs now s' k HI') in Hs2. destruct Ha as [Ha _]. rewrite Ha in Hs2.
      cbn [spec_step a_list] in Hs2. destruct (a_list (abs s) k) as [[v tk]|] eqn:Hab; [|congruence].
      exists v, tk. split; [reflexivity|]. cbn [abs a_timeout] in Hs2.
      destruct (Z.ltb_spec tk (now - e_timeout s)); [assumption|discriminate].
  Qed.

  (** *** Explicit insert of an absent key *)
  Lemma aset_snoc_new (m : list (K * mentry V)) k e1 e2 :
    aget k m = None -> aset k e2 (m ++ [(k, e1)]) = m ++ [(k, e2)].
  Proof.
    induction m as [|[k2 v2] m IH]; cbn; intros Hn.
    - rewrite eqb_refl; reflexivity.
    - destruct (eqb k k2); [discriminate|]. rewrite IH by assumption. reflexivity.
  Qed.

  Lemma insert_as_index (dflt : V) now k v (s : emap) : aget k (e_map s) = None ->
    em_index dflt now k (fun _ => v) s = Some (em_insert now k v s).
  Proof.
    intros Hn. unfold em_index, em_insert. rewrite Hn. cbn. rewrite aset_snoc_new by exact Hn. reflexivity.
  Qed.

  Lemma run_refines_fresh (dflt : V) (os : list emop) : forall t (s : emap) (a : @aspec K V), Inv t s -> aequiv (abs s) a -> clock_from t os ->
    inserts_fresh dflt os a ->
    exists s' t', em_run dflt os s = Some s' /\ Inv t' s' /\ aequiv (abs s') (spec_run dflt os a).
  Proof.
    induction os as [|o os IH]; cbn; intros t s a HI Hab Hck Hfr.
    - exists s, t. auto.
    - destruct Hfr as [Hfo Hfr].
      assert (Hstep : exists s', em_step dflt o s = Some s' /\
                Inv (match op_time o with Some now => now | None => t end) s' /\
                aequiv (abs s') (spec_step dflt o (abs s))).
      { destruct (match o with OInsert _ _ _ => true | _ => false end) eqn:Eo.
        - destruct o as [now k f|now k v|k|now| |k|tt]; try discriminate. cbn in Hck. destruct Hck as [Hle _].
          assert (Hnone : a_list (abs s) k = None) by (destruct Hab as [Hl _]; rewrite Hl; exact Hfo).
          assert (Hn : aget k (e_map s) = None).
          { cbn in Hnone. destruct (aget k (e_map s)) as [e|] eqn:He; [|reflexivity].
            destruct (inv0_find s k e (i_0 _ _ HI) He) as [c [F _]]. rewrite F in Hnone. discriminate. }
          destruct (index_spec dflt t now k (fun _ => v) s HI Hle) as [s' [Hs [HI' Ha]]].
          rewrite insert_as_index in Hs by exact Hn. injection Hs as <-.
          exists (em_insert now k v s). cbn [op_time em_step]. split; [reflexivity|split; [assumption|]].
          eapply aequiv_trans; [exact Ha|]. split; [|reflexivity]. intros k'.
          unfold spec_step. rewrite Hnone. reflexivity.
        - apply inv_step; [assumption|intros now k v E; subst o; discriminate|].
          destruct (op_time o); tauto. }
      destruct Hstep as [s1 [Hs [HI1 Ha]]]. rewrite Hs.
      destruct (IH _ s1 (spec_step dflt o a) HI1) as [s' [t' Hr]].
      + eapply aequiv_trans; [exact Ha|]. apply spec_step_equiv; assumption.
      + destruct (op_time o); tauto.
      + assumption.
      + exists s', t'. exact Hr.
  Qed.

  Lemma find_refines_fresh (dflt : V) (os : list emop) t0 timeout : clock_from t0 os ->
    inserts_fresh dflt os (spec_new timeout) ->
    exists s, em_run dflt os (em_new timeout) = Some s /\
      forall k, em_find k s = match a_list (spec_run dflt os (spec_new timeout)) k with Some (v, _) => Some v | None => None end.
  Proof.
    intros Hck Hfr.
    destruct (run_refines_fresh dflt os t0 (em_new timeout) (spec_new timeout) (inv_new t0 timeout) (aequiv_refl _) Hck Hfr)
      as [s [t' [Hr [HI Ha]]]].
    exists s; split; [assumption|]. intros k. rewrite (em_find_abs t' s k HI).
    destruct Ha as [Ha _]. rewrite Ha. reflexivity.
  Qed.

  Lemma insert_refuted_lemma (k : K) (v : V) :
    exists timeout t1 t2 t3 now, (0 <= t1 <= t2)%Z /\ (t2 <= t3 <= now)%Z /\ (now - timeout <= t3)%Z /\
      exists s, em_run v [OInsert t1 k v; OInsert t2 k v; OIndex t3 k (fun x => x); OExpire now] (em_new timeout) = Some s
                /\ em_find k s = None.
  Proof.
    exists 10%Z, 0%Z, 5%Z, 14%Z, 16%Z. repeat split; try lia.
    eexists. split.
    - unfold em_run, em_step, em_index, em_insert, em_update_timestamp. repeat (cbn; rewrite ?eqb_refl). reflexivity.
    - unfold em_find, em_erase_expired. cbn [e_list e_map e_timeout e_next em_evict c_ts c_key].
      change (Z.ltb 5 (16 - 10)) with true. cbn [em_evict c_ts c_key].
      change (Z.ltb 14 (16 - 10)) with false. cbn. rewrite aget_adel, eqb_refl. reflexivity.
  Qed.
End Proofs.
