(** Proofs about service servers. *)
From Verif Require Import Base Sample PbModel PbSpec SerModel SerSpec SerProofs SrvModel SrvSpec.
From Coq Require Import Permutation.

Arguments ser_response : simpl never.
Arguments de_request : simpl never.
Arguments say_executed : simpl never.
Arguments Nat.eqb : simpl never.

Lemma m_run_app a : forall b s s2 tr, m_run (a ++ b) s = Some (s2, tr) ->
  exists s1 tr1 tr2, m_run a s = Some (s1, tr1) /\ m_run b s1 = Some (s2, tr2) /\ tr = tr1 ++ tr2.
Proof.
  induction a as [|op a IH]; intros b s s2 tr E.
  - exists s, [], tr. auto.
  - cbn in *. destruct (m_step op s) as [[s1 e1]|]; [|discriminate].
    destruct (m_run (a ++ b) s1) as [[s3 e3]|] eqn:E3; [|discriminate]. injection E as <- <-.
    destruct (IH b s1 s3 e3 E3) as (s4 & t1 & t2 & A & B & ->). rewrite A. exists s4, (e1 ++ t1), t2. rewrite app_assoc. auto.
Qed.
Lemma m_run_join a : forall b s s1 tr1 s2 tr2, m_run a s = Some (s1, tr1) -> m_run b s1 = Some (s2, tr2) -> m_run (a ++ b) s = Some (s2, tr1 ++ tr2).
Proof.
  induction a as [|op a IH]; intros b s s1 tr1 s2 tr2 E1 E2; cbn in *.
  - injection E1 as <- <-. exact E2.
  - destruct (m_step op s) as [[s3 e3]|]; [|discriminate]. destruct (m_run a s3) as [[s4 e4]|] eqn:E4; [|discriminate].
    injection E1 as <- <-. rewrite (IH b s3 s4 e4 s2 tr2 E4 E2), app_assoc. reflexivity.
Qed.
Lemma m_run_snoc a op s s2 tr : m_run (a ++ [op]) s = Some (s2, tr) ->
  exists s1 tr1 e, m_run a s = Some (s1, tr1) /\ m_step op s1 = Some (s2, e) /\ tr = tr1 ++ e.
Proof.
  intros E. apply m_run_app in E. destruct E as (s1 & t1 & t2 & A & B & ->). cbn in B.
  destruct (m_step op s1) as [[s3 e3]|] eqn:E3; [|discriminate]. injection B as <- <-. rewrite app_nil_r.
  exists s1, t1, e3. auto.
Qed.

Definition book0 : ledger := Ledger false None 0 ([], []) ([], []).
Lemma book_snoc ops op m : book (ops ++ [op]) m = note m (book ops m) op.
Proof. unfold book. rewrite fold_left_app. reflexivity. Qed.
Lemma requests_app a b : requests (a ++ b) = requests a + requests b.
Proof. unfold requests. rewrite filter_app, app_length. reflexivity. Qed.

Definition entry_ok (m : text) (o : option smethod) (l : ledger) : Prop :=
  match o with
  | Some e => l = Ledger true (mt_cb e) (me_count (mt_method e)) (me_req_type (mt_method e), me_resp_type (mt_method e))
                    (me_req_desc (mt_method e), me_resp_desc (mt_method e)) /\ me_name (mt_method e) = m
  | None => l = book0
  end.

Record Inv (host name id : text) (ops : list mop) (s : server) (tr : list mev) : Prop := {
  i_host : vr_host s = host; i_name : vr_name s = name; i_id : vr_id s = id;
  i_next : vr_next s = requests ops;
  i_meth : forall m, entry_ok m (aget m (vr_methods s)) (book ops m);
  i_nd : NoDup (keys (vr_methods s));
  i_fresh : forall k, vr_next s <= k -> aget k (vr_jobs s) = None /\ about k tr = [] /\ returns ops k = [] }.

Lemma keys_adel_in {V} (k k' : text) (m : list (text * V)) : In k (keys (adel k' m)) -> In k (keys m).
Proof. unfold keys, adel. intros H. apply in_map_iff in H. destruct H as (p & <- & H). apply filter_In in H. apply in_map. tauto. Qed.
Lemma nodup_adel {V} (k : text) (m : list (text * V)) : NoDup (keys m) -> NoDup (keys (adel k m)).
Proof. unfold keys, adel. apply nodup_map_filter. Qed.

Lemma returns_app a b k : returns (a ++ b) k = returns a k ++ returns b k.
Proof. unfold returns. apply flat_map_app. Qed.
Lemma about_app a b k : about k (a ++ b) = about k a ++ about k b.
Proof. apply filter_app. Qed.

Lemma entry_describe m m' rt rd st sd ms l : (forall x, entry_ok x (aget x ms) (l x)) ->
  entry_ok m (aget m (describe m' rt rd st sd ms)) (note m (l m) (MDescribe m' rt rd st sd)).
Proof.
  intros H. unfold describe. cbn [note]. pose proof (H m') as H'. pose proof (H m) as Hm.
  destruct (aget m' ms) as [e|] eqn:E; rewrite aget_aset, (eqb_sym m' m); destruct (eqb m m') eqn:Q; try exact Hm;
    apply eqb_true in Q; subst m'; cbn in H'.
  - destruct H' as [B N]. rewrite B; cbn; auto.
  - rewrite H'; cbn; auto.
Qed.
Lemma entry_callback m m' rt st cb ms l : (forall x, entry_ok x (aget x ms) (l x)) ->
  entry_ok m (aget m (add_callback m' rt st cb ms)) (note m (l m) (MCallback m' rt st cb)).
Proof.
  intros H. unfold add_callback. cbn [note]. pose proof (H m') as H'. pose proof (H m) as Hm.
  destruct (aget m' ms) as [e|] eqn:E; rewrite aget_aset, (eqb_sym m' m); destruct (eqb m m') eqn:Q; try exact Hm;
    apply eqb_true in Q; subst m'; cbn in H'.
  - destruct H' as [B N]. rewrite B; cbn; auto.
  - rewrite H'; cbn; auto.
Qed.

Lemma nodup_describe m rt rd st sd ms : NoDup (keys ms) -> NoDup (keys (describe m rt rd st sd ms)).
Proof. intros N. unfold describe. destruct (aget m ms); apply nodup_aset, N. Qed.
Lemma nodup_callback m rt st cb ms : NoDup (keys ms) -> NoDup (keys (add_callback m rt st cb ms)).
Proof. intros N. unfold add_callback. destruct (aget m ms); apply nodup_aset, N. Qed.

Lemma names_ok m bs q : de_request bs = Ok q -> names m bs = eqb (h_mname (rq_header q)) m.
Proof. intros E. unfold names. rewrite E. reflexivity. Qed.

Lemma step_inv host name id ops s tr op s' e :
  Inv host name id ops s tr -> m_step op s = Some (s', e) -> Inv host name id (ops ++ [op]) s' (tr ++ e).
Proof.
  intros [Ho Na Id Nx Me Nd Fr] E. unfold m_step in E. destruct (vr_dead s); [discriminate|].
  destruct op as [m rt rd st sd|m rt st cb|m|bs|k|k resp ret|].
  - injection E as <- <-. constructor; cbn; rewrite ?requests_app, ?app_nil_r; cbn; try (assumption || lia).
    + intros x. rewrite book_snoc. apply entry_describe, Me.
    + apply nodup_describe, Nd.
    + intros k Hk. rewrite returns_app. cbn. rewrite app_nil_r. auto.
  - injection E as <- <-. constructor; cbn; rewrite ?requests_app, ?app_nil_r; cbn; try (assumption || lia).
    + intros x. rewrite book_snoc. apply entry_callback, Me.
    + apply nodup_callback, Nd.
    + intros k Hk. rewrite returns_app. cbn. rewrite app_nil_r. auto.
  - destruct (amem m (vr_methods s)) eqn:A; injection E as <- <-; constructor; cbn; rewrite ?requests_app; cbn; try (assumption || lia).
    + intros x. rewrite book_snoc, aget_adel. cbn [note]. rewrite (eqb_sym m x). destruct (eqb x m); [reflexivity|apply Me].
    + apply nodup_adel, Nd.
    + intros k Hk. rewrite returns_app, about_app. cbn. rewrite !app_nil_r. auto.
    + intros x. rewrite book_snoc. cbn [note]. rewrite (eqb_sym m x). destruct (eqb x m) eqn:Q; [|apply Me].
      apply eqb_true in Q. subst x. unfold amem in A. destruct (aget m (vr_methods s)); [discriminate|reflexivity].
    + intros k Hk. rewrite returns_app, about_app. cbn. rewrite !app_nil_r. auto.
  - destruct (de_request bs) as [q| |] eqn:D.
    + destruct (aget (h_mname (rq_header q)) (vr_methods s)) as [x|] eqn:G; injection E as <- <-.
      * constructor; cbn; rewrite ?requests_app; cbn; try (assumption || lia).
        -- intros y. rewrite book_snoc, aget_aset. cbn [note]. rewrite (names_ok _ _ _ D), (eqb_sym _ y).
           pose proof (Me y) as My. destruct (eqb y (h_mname (rq_header q))) eqn:Q.
           ++ apply eqb_true in Q. subst y. rewrite G in My. destruct My as [B N]. rewrite B. cbn. auto.
           ++ rewrite andb_false_r. exact My.
        -- apply nodup_aset, Nd.
        -- intros k Hk. rewrite returns_app, about_app. cbn. rewrite !app_nil_r.
           destruct (Fr k ltac:(lia)) as (A & B & C). rewrite neq_eqb by lia. auto.
      * constructor; cbn; rewrite ?requests_app; cbn; try (assumption || lia).
        -- intros y. rewrite book_snoc. cbn [note]. rewrite (names_ok _ _ _ D).
           pose proof (Me y) as My. destruct (eqb (h_mname (rq_header q)) y) eqn:Q.
           ++ apply eqb_true in Q. subst y. rewrite G in *. cbn in My. rewrite My. reflexivity.
           ++ rewrite andb_false_r. exact My.
        -- intros k Hk. rewrite returns_app, about_app. cbn. rewrite !app_nil_r.
           destruct (Fr k ltac:(lia)) as (A & B & C). replace (Nat.eqb (vr_next s) k) with false by (symmetry; apply Nat.eqb_neq; lia).
           rewrite B. auto.
    + injection E as <- <-. constructor; cbn; rewrite ?requests_app; cbn; try (assumption || lia).
      * intros y. rewrite book_snoc. cbn [note]. unfold names. rewrite D, andb_false_r. apply Me.
      * intros k Hk. rewrite returns_app, about_app. cbn. rewrite !app_nil_r.
        destruct (Fr k ltac:(lia)) as (A & B & C). replace (Nat.eqb (vr_next s) k) with false by (symmetry; apply Nat.eqb_neq; lia).
        rewrite B. auto.
    + injection E as <- <-. constructor; cbn; rewrite ?requests_app; cbn; try (assumption || lia).
      * intros y. rewrite book_snoc. cbn [note]. unfold names. rewrite D, andb_false_r. apply Me.
      * intros k Hk. rewrite returns_app, about_app. cbn. rewrite !app_nil_r.
        destruct (Fr k ltac:(lia)) as (A & B & C). replace (Nat.eqb (vr_next s) k) with false by (symmetry; apply Nat.eqb_neq; lia).
        rewrite B. auto.
  - destruct (aget k (vr_jobs s)) as [[x r en]|] eqn:G; [|discriminate]. destruct en; [discriminate|].
    assert (K : k < vr_next s) by (destruct (le_lt_dec (vr_next s) k) as [L|L]; [destruct (Fr k L); congruence|exact L]).
    destruct (mt_cb x) as [cb|]; injection E as <- <-; constructor; cbn; rewrite ?requests_app; cbn; try (assumption || lia);
      try (intros y; rewrite book_snoc; apply Me);
      intros k' Hk; rewrite returns_app, about_app; cbn; rewrite ?app_nil_r;
      destruct (Fr k' Hk) as (A & B & C); replace (Nat.eqb k k') with false by (symmetry; apply Nat.eqb_neq; lia);
      rewrite ?aget_aset, ?(neq_eqb k' k) by lia; rewrite A, B, C; auto.
  - destruct (aget k (vr_jobs s)) as [[x r en]|] eqn:G; [|discriminate]. destruct en; [|discriminate].
    assert (K : k < vr_next s) by (destruct (le_lt_dec (vr_next s) k) as [L|L]; [destruct (Fr k L); congruence|exact L]).
    injection E as <- <-; constructor; cbn; rewrite ?requests_app; cbn; try (assumption || lia).
    + intros y; rewrite book_snoc; apply Me.
    + intros k' Hk; rewrite returns_app, about_app; cbn.
      destruct (Fr k' Hk) as (A & B & C); replace (Nat.eqb k k') with false by (symmetry; apply Nat.eqb_neq; lia).
      rewrite aget_adel, (neq_eqb k' k) by lia. rewrite A, B, C; auto.
  - injection E as <- <-. constructor; cbn; rewrite ?requests_app; cbn; try (assumption || lia).
    + intros y; rewrite book_snoc; apply Me.
    + intros k Hk. rewrite returns_app, about_app. cbn. rewrite !app_nil_r. auto.
Qed.

Lemma init_inv host name id : Inv host name id [] (server0 host name id) [].
Proof. constructor; cbn; auto; try constructor. Qed.
Lemma run_inv host name id ops : forall s tr, m_run ops (server0 host name id) = Some (s, tr) -> Inv host name id ops s tr.
Proof.
  induction ops as [|op ops IH] using rev_ind; intros s tr E.
  - cbn in E. injection E as <- <-. apply init_inv.
  - apply m_run_snoc in E. destruct E as (s1 & t1 & e & A & B & ->). eapply step_inv; eauto.
Qed.

(** ** One request after it has been looked up *)
Definition stage (k : nat) (x : smethod) (r : text) (reply : text -> Z -> list Z) (s : server) (ev : list mev) (rt : list (text * Z)) : Prop :=
  let call cb := VCall k cb (me_name (mt_method x)) (me_req_type (mt_method x)) (me_resp_type (mt_method x)) r in
  (aget k (vr_jobs s) = Some (Job x r false) /\ vr_dead s = false /\ ev = [] /\ rt = []) \/
  (exists cb, mt_cb x = Some cb /\ aget k (vr_jobs s) = Some (Job x r true) /\ ev = [call cb] /\ rt = []) \/
  (exists cb resp ret, mt_cb x = Some cb /\ aget k (vr_jobs s) = None /\ ev = [call cb; VReply k (reply resp ret)] /\ rt = [(resp, ret)]) \/
  (vr_dead s = true /\ rt = [] /\
    ((mt_cb x = None /\ aget k (vr_jobs s) = Some (Job x r false) /\ ev = [VTerminate k]) \/ (aget k (vr_jobs s) = Some (Job x r false) /\ ev = []))).

Lemma stage_step host name id k x r s ev rt op s' e :
  vr_host s = host -> vr_name s = name -> vr_id s = id ->
  k < vr_next s ->
  stage k x r (fun resp ret => ser_response (say_executed host name id (me_name (mt_method x)) resp ret)) s ev rt ->
  m_step op s = Some (s', e) ->
  (vr_host s' = host /\ vr_name s' = name /\ vr_id s' = id /\ k < vr_next s') /\
  stage k x r (fun resp ret => ser_response (say_executed host name id (me_name (mt_method x)) resp ret)) s' (ev ++ about k e) (rt ++ returns [op] k).
Proof.
  intros Ho Na Id K St E. unfold m_step in E. destruct (vr_dead s) eqn:Dd; [discriminate|].
  destruct op as [m rt' rd st sd|m rt' st cb|m|bs|j|j resp ret|].
  - injection E as <- <-. cbn. rewrite !app_nil_r. split; [auto|exact St].
  - injection E as <- <-. cbn. rewrite !app_nil_r. split; [auto|exact St].
  - destruct (amem m (vr_methods s)); injection E as <- <-; cbn; rewrite !app_nil_r; (split; [auto|exact St]).
  - assert (N : Nat.eqb (vr_next s) k = false) by (apply Nat.eqb_neq; lia).
    assert (N2 : eqb k (vr_next s) = false) by (apply neq_eqb; lia).
    destruct (de_request bs) as [q| |]; [destruct (aget (h_mname (rq_header q)) (vr_methods s)) as [y|]| |]; injection E as <- <-; cbn; rewrite ?N;
      rewrite !app_nil_r; (split; [repeat split; (assumption || lia)|]); try exact St.
    unfold stage in *. cbn [vr_jobs set_jobs set_methods next_request vr_dead aget]. rewrite N2. exact St.
  - destruct (aget j (vr_jobs s)) as [[y rr en]|] eqn:G; [|discriminate]. destruct en; [discriminate|].
    destruct (Nat.eq_dec j k) as [->|Nj].
    + unfold stage in St. rewrite G in St. rewrite Dd in St.
      destruct St as [(A & _ & -> & ->)|[(cb & _ & A & _)|[(cb & ? & ? & _ & A & _)|(A & _)]]]; try discriminate.
      injection A as -> ->. destruct (mt_cb x) as [cb|] eqn:Cb; injection E as <- <-; cbn; rewrite Nat.eqb_refl.
      * split; [auto|]. right; left. exists cb. cbn [vr_jobs set_jobs]. rewrite aget_aset_same. auto.
      * split; [auto|]. right; right; right. cbn. split; [reflexivity|]. split; [reflexivity|]. left. auto.
    + assert (N : Nat.eqb j k = false) by (apply Nat.eqb_neq; exact Nj).
      destruct (mt_cb y) as [cb|]; injection E as <- <-; cbn; rewrite N, !app_nil_r; (split; [auto|]).
      * unfold stage in *. cbn [vr_jobs set_jobs vr_dead]. rewrite aget_aset_other by congruence. exact St.
      * unfold stage in *. cbn [vr_jobs vr_dead]. rewrite Dd in St.
        destruct St as [(A & _ & -> & ->)|[(cb & A)|[(cb & A)|(A & _)]]]; [|right; left; eauto|right; right; left; eauto|discriminate].
        right; right; right. auto.
  - destruct (aget j (vr_jobs s)) as [[y rr en]|] eqn:G; [|discriminate]. destruct en; [|discriminate].
    destruct (Nat.eq_dec j k) as [->|Nj].
    + unfold stage in St. rewrite G in St.
      destruct St as [(A & _ & -> & ->)|[(cb & Cb & A & -> & ->)|[(cb & ? & ? & _ & A & _)|(A & _ & [(_ & B & _)|(B & _)])]]]; try discriminate.
      injection A as -> ->. injection E as <- <-. cbn. rewrite Nat.eqb_refl. split; [auto|].
      right; right; left. exists cb, resp, ret. cbn [vr_jobs set_jobs]. rewrite aget_adel, eqb_refl. unfold answer. rewrite Ho, Na, Id. auto 6.
    + assert (N : Nat.eqb j k = false) by (apply Nat.eqb_neq; exact Nj).
      injection E as <- <-; cbn; rewrite N, !app_nil_r; (split; [auto|]).
      unfold stage in *. cbn [vr_jobs set_jobs vr_dead]. rewrite aget_adel, (neq_eqb k j) by congruence. exact St.
  - injection E as <- <-. cbn. rewrite !app_nil_r. split; [auto|exact St].
Qed.
Lemma stage_run host name id k x r ops : forall s ev rt s' tr,
  vr_host s = host -> vr_name s = name -> vr_id s = id -> k < vr_next s ->
  stage k x r (fun resp ret => ser_response (say_executed host name id (me_name (mt_method x)) resp ret)) s ev rt ->
  m_run ops s = Some (s', tr) ->
  stage k x r (fun resp ret => ser_response (say_executed host name id (me_name (mt_method x)) resp ret)) s' (ev ++ about k tr) (rt ++ returns ops k).
Proof.
  induction ops as [|op ops IH]; intros s ev rt s' tr Ho Na Id K St E; cbn in E.
  - injection E as <- <-. cbn. rewrite !app_nil_r. exact St.
  - destruct (m_step op s) as [[s1 e1]|] eqn:E1; [|discriminate]. destruct (m_run ops s1) as [[s2 e2]|] eqn:E2; [|discriminate].
    injection E as <- <-. destruct (stage_step host name id k x r s ev rt op s1 e1 Ho Na Id K St E1) as ((A & B & C & D) & St1).
    specialize (IH s1 _ _ s2 e2 A B C D St1 E2).
    rewrite about_app, app_assoc. change (op :: ops) with ([op] ++ ops). rewrite returns_app, app_assoc. exact IH.
Qed.
(** Nothing more happens to a request that has been answered. *)
Lemma quiet_step k s op s' e : aget k (vr_jobs s) = None -> k < vr_next s -> m_step op s = Some (s', e) ->
  aget k (vr_jobs s') = None /\ k < vr_next s' /\ about k e = [] /\ returns [op] k = [].
Proof.
  intros J K E. unfold m_step in E. destruct (vr_dead s); [discriminate|].
  destruct op as [m rt' rd st sd|m rt' st cb|m|bs|j|j resp ret|].
  - injection E as <- <-. auto.
  - injection E as <- <-. auto.
  - destruct (amem m (vr_methods s)); injection E as <- <-; auto.
  - assert (N : Nat.eqb (vr_next s) k = false) by (apply Nat.eqb_neq; lia).
    assert (N2 : eqb k (vr_next s) = false) by (apply neq_eqb; lia).
    destruct (de_request bs) as [q| |]; [destruct (aget (h_mname (rq_header q)) (vr_methods s)) as [y|]| |]; injection E as <- <-; cbn; rewrite ?N, ?N2;
      repeat split; (assumption || lia).
  - destruct (aget j (vr_jobs s)) as [[y rr en]|] eqn:G; [|discriminate]. destruct en; [discriminate|].
    assert (Nj : j <> k) by congruence. assert (N : Nat.eqb j k = false) by (apply Nat.eqb_neq; exact Nj).
    destruct (mt_cb y) as [cb|]; injection E as <- <-; cbn; rewrite N, ?aget_aset, ?(neq_eqb k j) by congruence; auto.
  - destruct (aget j (vr_jobs s)) as [[y rr en]|] eqn:G; [|discriminate]. destruct en; [|discriminate].
    assert (Nj : j <> k) by congruence. assert (N : Nat.eqb j k = false) by (apply Nat.eqb_neq; exact Nj).
    injection E as <- <-; cbn; rewrite N, aget_adel, (neq_eqb k j) by congruence; auto.
  - injection E as <- <-. auto.
Qed.
Lemma quiet_run k ops : forall s s' tr, aget k (vr_jobs s) = None -> k < vr_next s -> m_run ops s = Some (s', tr) -> about k tr = [].
Proof.
  induction ops as [|op ops IH]; intros s s' tr J K E; cbn in E; [injection E as <- <-; reflexivity|].
  destruct (m_step op s) as [[s1 e1]|] eqn:E1; [|discriminate]. destruct (m_run ops s1) as [[s2 e2]|] eqn:E2; [|discriminate].
  injection E as <- <-. destruct (quiet_step k s op s1 e1 J K E1) as (A & B & C & _). rewrite about_app, C. eapply IH; eauto.
Qed.

(** ** The life of a request *)
Lemma request_lemma host name id ops1 bs ops2 s tr :
  m_run (ops1 ++ MRequest bs :: ops2) (server0 host name id) = Some (s, tr) ->
  let k := requests ops1 in
  match de_request bs with
  | Ok q =>
      let m := h_mname (rq_header q) in
      let l := book ops1 m in
      if ld_known l then
        match ld_cb l with
        | Some cb =>
            let call := VCall k cb m (fst (ld_types l)) (snd (ld_types l)) (rq_request q) in
            (about k tr = [] /\ (vr_dead s = false -> m_step (MEnter k) s <> None)) \/
            (about k tr = [call] /\ (vr_dead s = false -> forall resp ret, m_step (MReturn k resp ret) s <> None)) \/
            (exists resp ret, returns ops2 k = [(resp, ret)] /\
               about k tr = [call; VReply k (ser_response (say_executed host name id m resp ret))])
        | None => about k tr = [] \/ about k tr = [VTerminate k]
        end
      else about k tr = [VReply k (ser_response (say_unknown host name id m))]
  | _ => about k tr = [VReply k (ser_response (say_unreadable host name id))]
  end.
Proof.
  intros E k. apply m_run_app in E. destruct E as (s0 & t0 & t1 & E0 & E1 & ->).
  pose proof (run_inv _ _ _ _ _ _ E0) as [Ho Na Id Nx Me Nd Fr].
  destruct (Fr (vr_next s0) (le_n _)) as (J0 & A0 & R0). rewrite Nx in A0.
  cbn [m_run] in E1. destruct (m_step (MRequest bs) s0) as [[s1 e1]|] eqn:Es; [|discriminate].
  destruct (m_run ops2 s1) as [[s2 e2]|] eqn:E2; [|discriminate]. injection E1 as <- <-.
  unfold m_step in Es. destruct (vr_dead s0) eqn:Dd; [discriminate|].
  unfold k. rewrite about_app, A0. cbn [app].
  assert (Qr : forall e, m_run ops2 (next_request s0) = Some (s2, e) -> about (requests ops1) e = []).
  { intros e Ee. apply (quiet_run (requests ops1) ops2 (next_request s0) s2 e); [rewrite <- Nx; exact J0|cbn [vr_next next_request]; lia|exact Ee]. }
  destruct (de_request bs) as [q| |] eqn:D.
  - pose proof (Me (h_mname (rq_header q))) as M. cbn zeta. destruct (aget (h_mname (rq_header q)) (vr_methods s0)) as [x|] eqn:G.
    + destruct M as [B N]. rewrite B. cbn [ld_known ld_cb ld_types fst snd]. injection Es as <- <-.
      assert (St : stage (requests ops1) (counted x) (rq_request q)
                (fun resp ret => ser_response (say_executed host name id (me_name (mt_method (counted x))) resp ret)) s2 ([] ++ about (requests ops1) e2) ([] ++ returns ops2 (requests ops1))).
      { eapply stage_run; [| | | | |exact E2]; cbn; try assumption; [lia|]. left. cbn. rewrite Nx, eqb_refl. auto. }
      cbn [app] in St. cbn [app]. unfold stage in St. change (me_name (mt_method (counted x))) with (me_name (mt_method x)) in St. rewrite N in St. cbv zeta in St.
      destruct St as [(A & Dn & B1 & B2)|[(cb & Cb & A & B1 & B2)|[(cb & resp & ret & Cb & A & B1 & B2)|(A & B1 & [(C1 & C2 & C3)|(C1 & C2)])]]].
      * rewrite B1. destruct (mt_cb x) as [cb|]; [|left; reflexivity]. left. split; [reflexivity|]. intros Hd. unfold m_step. rewrite Hd, A. cbn.
        destruct (mt_cb x); discriminate.
      * cbn in Cb. rewrite Cb. right; left. rewrite B1. split; [reflexivity|]. intros Hd resp ret. unfold m_step. rewrite Hd, A. discriminate.
      * cbn in Cb. rewrite Cb. right; right. exists resp, ret. auto.
      * cbn in C1. rewrite C1, C3. auto.
      * rewrite C2. destruct (mt_cb x); [|left; reflexivity]. left. split; [reflexivity|]. intros F. congruence.
    + rewrite M. cbn [ld_known book0]. injection Es as <- <-. rewrite about_app, (Qr _ E2).
      cbn. rewrite Nx, Nat.eqb_refl, app_nil_r. unfold answer. rewrite Ho, Na, Id. reflexivity.
  - injection Es as <- <-. rewrite about_app, (Qr _ E2).
    cbn. rewrite Nx, Nat.eqb_refl. unfold answer. rewrite Ho, Na, Id. reflexivity.
  - injection Es as <- <-. rewrite about_app, (Qr _ E2).
    cbn. rewrite Nx, Nat.eqb_refl. unfold answer. rewrite Ho, Na, Id. reflexivity.
Qed.

(** ** The table and the registration *)
Lemma register_lemma host name id ops s tr : m_run ops (server0 host name id) = Some (s, tr) -> vr_dead s = false ->
  exists l, m_step MRegister s = Some (s, [VMethods l]) /\ NoDup (map me_name l) /\
    forall q, In q l <->
      (known ops (me_name q) = true /\
       let b := book ops (me_name q) in
       q = Method (me_name q) (fst (ld_types b)) (fst (ld_descs b)) (snd (ld_types b)) (snd (ld_descs b)) (ld_count b)).
Proof.
  intros E D. pose proof (run_inv _ _ _ _ _ _ E) as [Ho Na Id Nx Me Nd Fr].
  unfold m_step. rewrite D. eexists. split; [reflexivity|]. 
  assert (A : forall m x, In (m, x) (vr_methods s) -> me_name (mt_method x) = m /\ 
     book ops m = Ledger true (mt_cb x) (me_count (mt_method x)) (me_req_type (mt_method x), me_resp_type (mt_method x))
                    (me_req_desc (mt_method x), me_resp_desc (mt_method x))).
  { intros m x H. pose proof (Me m) as M. rewrite (in_aget m x (vr_methods s) Nd H) in M. destruct M. auto. }
  split.
  - rewrite map_map. replace (map (fun x => me_name (mt_method (snd x))) (vr_methods s)) with (keys (vr_methods s)); [exact Nd|].
    unfold keys. apply map_ext_in. intros [m x] H. symmetry. apply (A m x H).
  - intros q. rewrite in_map_iff. split.
    + intros ([m x] & <- & H). cbn [snd]. destruct (A m x H) as [N B]. unfold known. rewrite N, B. cbn. split; [reflexivity|].
      rewrite <- N. destruct (mt_method x); reflexivity.
    + intros [K Q]. unfold known in K. pose proof (Me (me_name q)) as M. destruct (aget (me_name q) (vr_methods s)) as [x|] eqn:G; [|cbn in M; rewrite M in K; discriminate].
      destruct M as [B N]. rewrite B in Q. cbn in Q. exists (me_name q, x). split; [|apply aget_in; exact G]. cbn [snd].
      rewrite Q, <- N. destruct (mt_method x); reflexivity.
Qed.

(** ** Counting *)
Lemma asked_snoc m ops : forall before op, asked before (ops ++ [op]) m =
  asked before ops m + match op with MRequest bs => if (known (before ++ ops) m && names m bs)%bool then 1 else 0 | _ => 0 end.
Proof.
  induction ops as [|o ops IH]; intros before op; cbn [asked app].
  - rewrite app_nil_r. lia.
  - rewrite IH, <- app_assoc. cbn [app]. lia.
Qed.
Definition waits (m : text) (p : nat * job) : bool := (negb (jb_entered (snd p)) && eqb (me_name (mt_method (jb_method (snd p)))) m)%bool.
Lemma wait_enter m k x r (l : list (nat * job)) : aget k l = Some (Job x r false) ->
  length (filter (waits m) l) = (if eqb (me_name (mt_method x)) m then 1 else 0) + length (filter (waits m) (aset k (Job x r true) l)).
Proof.
  induction l as [|[k' j] l IH]; cbn [aget aset]; [discriminate|]. destruct (eqb k k') eqn:Q.
  - intros G. injection G as ->. cbn [filter]. change (waits m (k', Job x r false)) with (eqb (me_name (mt_method x)) m).
    change (waits m (k, Job x r true)) with false. destruct (eqb (me_name (mt_method x)) m); cbn [length]; lia.
  - intros G. specialize (IH G). cbn [filter]. destruct (waits m (k', j)); cbn [length]; lia.
Qed.
Lemma wait_return m k x r (l : list (nat * job)) : NoDup (keys l) -> aget k l = Some (Job x r true) ->
  filter (waits m) (adel k l) = filter (waits m) l.
Proof.
  induction l as [|[k' j] l IH]; cbn [aget keys map fst]; [discriminate|]. intros N G. inversion N as [|? ? N1 N2]; subst.
  unfold adel. cbn [filter fst]. destruct (eqb k k') eqn:Q.
  - apply eqb_true in Q. subst k'. injection G as ->. cbn [negb]. change (waits m (k, Job x r true)) with false. cbn iota.
    fold (adel k l). replace (adel k l) with l; [reflexivity|]. unfold adel. symmetry. 
    clear IH N. induction l as [|[k2 j2] l IH]; [reflexivity|]. cbn in N1. cbn [filter fst]. rewrite neq_eqb by (intros ->; auto). cbn [negb].
    inversion N2; subst. rewrite IH; auto.
  - cbn [negb filter]. fold (adel k l). specialize (IH N2 G). destruct (waits m (k', j)); rewrite IH; reflexivity.
Qed.
Lemma executions_app m a b : executions m (a ++ b) = executions m a + executions m b.
Proof. unfold executions. rewrite filter_app, app_length. reflexivity. Qed.

Lemma count_lemma host name id m ops : forall s tr, m_run ops (server0 host name id) = Some (s, tr) ->
  executions m tr + waiting m s = asked [] ops m /\ NoDup (keys (vr_jobs s)).
Proof.
  induction ops as [|op ops IH] using rev_ind; intros s tr E.
  - cbn in E. injection E as <- <-. split; [reflexivity|constructor].
  - apply m_run_snoc in E. destruct E as (s1 & t1 & e & A & B & ->). destruct (IH s1 t1 A) as [C Nj].
    pose proof (run_inv _ _ _ _ _ _ A) as [Ho Na Id Nx Me Nd Fr].
    rewrite asked_snoc, executions_app. cbn [app].
    unfold m_step in B. destruct (vr_dead s1); [discriminate|]. unfold waiting in *. fold (waits m) in *.
    destruct op as [m' rt' rd st sd|m' rt' st cb|m'|bs|j|j resp ret|].
    + injection B as <- <-. cbn. split; [lia|exact Nj].
    + injection B as <- <-. cbn. split; [lia|exact Nj].
    + destruct (amem m' (vr_methods s1)); injection B as <- <-; cbn; (split; [lia|exact Nj]).
    + destruct (de_request bs) as [q| |] eqn:D.
      * pose proof (Me (h_mname (rq_header q))) as M. rewrite (names_ok m bs q D).
        destruct (aget (h_mname (rq_header q)) (vr_methods s1)) as [y|] eqn:G; injection B as <- <-; cbn.
        -- destruct M as [Bk N]. rewrite N. split.
           ++ destruct (eqb (h_mname (rq_header q)) m) eqn:Q; [apply eqb_true in Q; subst m; unfold known; rewrite Bk; cbn; lia|].
              rewrite andb_false_r. lia.
           ++ constructor; [|exact Nj]. intros H. destruct (Fr (vr_next s1) (le_n _)) as (F & _).
              unfold keys in H. apply in_map_iff in H. destruct H as ([k' j] & Ek & H). cbn in Ek. subst k'.
              rewrite (in_aget _ _ _ Nj H) in F. discriminate.
        -- split; [|exact Nj]. cbn in M. destruct (eqb (h_mname (rq_header q)) m) eqn:Q; [apply eqb_true in Q; subst m; unfold known; rewrite M; cbn; lia|].
           rewrite andb_false_r. lia.
      * injection B as <- <-. cbn. unfold names. rewrite D, andb_false_r. split; [lia|exact Nj].
      * injection B as <- <-. cbn. unfold names. rewrite D, andb_false_r. split; [lia|exact Nj].
    + destruct (aget j (vr_jobs s1)) as [[y rr en]|] eqn:G; [|discriminate]. destruct en; [discriminate|].
      destruct (mt_cb y) as [cb|]; injection B as <- <-; cbn.
      * split; [|apply nodup_aset, Nj]. rewrite (wait_enter m j y rr _ G) in C. destruct (eqb (me_name (mt_method y)) m); cbn in *; lia.
      * split; [lia|exact Nj].
    + destruct (aget j (vr_jobs s1)) as [[y rr en]|] eqn:G; [|discriminate]. destruct en; [|discriminate]. injection B as <- <-; cbn.
      rewrite (wait_return m j y rr _ Nj G). split; [lia|]. unfold keys, adel. apply nodup_map_filter, Nj.
    + injection B as <- <-. cbn. split; [lia|exact Nj].
Qed.

Lemma book_count m ops : (forall m', In (MRemove m') ops -> m' <> m) -> ld_count (book ops m) = Z.of_nat (asked [] ops m).
Proof.
  induction ops as [|op ops IH] using rev_ind; intros H; [reflexivity|]. rewrite book_snoc, asked_snoc. cbn [app].
  specialize (IH ltac:(intros m' I; apply H, in_or_app; auto)).
  destruct op as [m' rt' rd st sd|m' rt' st cb|m'|bs|j|j resp ret|]; cbn [note]; try lia.
  - destruct (eqb m' m); cbn; lia.
  - destruct (eqb m' m); cbn; lia.
  - rewrite neq_eqb; [lia|]. apply H. apply in_or_app. right. left. reflexivity.
  - unfold known. destruct (ld_known (book ops m) && names m bs)%bool; cbn; lia.
Qed.
Lemma calls_lemma host name id ops m s tr : m_run ops (server0 host name id) = Some (s, tr) ->
  executions m tr + waiting m s = asked [] ops m /\
  ((forall m', In (MRemove m') ops -> m' <> m) -> ld_count (book ops m) = Z.of_nat (executions m tr + waiting m s)).
Proof.
  intros E. destruct (count_lemma host name id m ops s tr E) as [C _]. split; [exact C|]. intros H. rewrite C. apply book_count, H.
Qed.

(** ** Survival *)
Lemma survive_lemma host name id ops : forall s tr, m_run ops (server0 host name id) = Some (s, tr) -> callable ops ->
  vr_dead s = false /\ (forall k j, aget k (vr_jobs s) = Some j -> mt_cb (jb_method j) <> None).
Proof.
  induction ops as [|op ops IH] using rev_ind; intros s tr E H.
  - cbn in E. injection E as <- <-. split; [reflexivity|discriminate].
  - apply m_run_snoc in E. destruct E as (s1 & t1 & e & A & B & ->).
    destruct (IH s1 t1 A) as [C Nj].
    { intros ops1 bs ops2 m Q. apply (H ops1 bs (ops2 ++ [op]) m). rewrite Q, <- app_assoc. reflexivity. }
    pose proof (run_inv _ _ _ _ _ _ A) as [Ho Na Id Nx Me Nd Fr].
    unfold m_step in B. rewrite C in B.
    destruct op as [m' rt' rd st sd|m' rt' st cb|m'|bs|j|j resp ret|].
    + injection B as <- <-. auto.
    + injection B as <- <-. auto.
    + destruct (amem m' (vr_methods s1)); injection B as <- <-; auto.
    + destruct (de_request bs) as [q| |] eqn:D.
      * pose proof (Me (h_mname (rq_header q))) as M.
        destruct (aget (h_mname (rq_header q)) (vr_methods s1)) as [y|] eqn:G; injection B as <- <-; cbn; [|auto].
        split; [exact C|]. intros k j. destruct M as [Bk N].
        destruct (eqb k (vr_next s1)); [|apply Nj]. intros F. injection F as <-. cbn.
        specialize (H ops bs [] (h_mname (rq_header q)) eq_refl). rewrite (names_ok _ _ _ D), eqb_refl in H. unfold known in H. rewrite Bk in H.
        apply H; reflexivity.
      * injection B as <- <-. auto.
      * injection B as <- <-. auto.
    + destruct (aget j (vr_jobs s1)) as [[y rr en]|] eqn:G; [|discriminate]. destruct en; [discriminate|].
      pose proof (Nj _ _ G) as Q. cbn in Q. destruct (mt_cb y) as [cb|] eqn:Cb; [|congruence]. injection B as <- <-; cbn.
      split; [exact C|]. intros k j'. rewrite aget_aset. destruct (eqb k j); [|apply Nj]. intros F. injection F as <-. cbn. congruence.
    + destruct (aget j (vr_jobs s1)) as [[y rr en]|] eqn:G; [|discriminate]. destruct en; [|discriminate]. injection B as <- <-; cbn.
      split; [exact C|]. intros k j'. rewrite aget_adel. destruct (eqb k j); [discriminate|apply Nj].
    + injection B as <- <-. auto.
Qed.
Lemma no_terminate_lemma host name id ops s tr : m_run ops (server0 host name id) = Some (s, tr) -> callable ops -> vr_dead s = false.
Proof. intros E H. eapply survive_lemma; eauto. Qed.

(** All requests can be finished. *)
Lemma callable_work o o' : callable o -> forallb work o' = true -> callable (o ++ o').
Proof.
  intros Ho Q ops1 bs ops2 m Eq.
  assert (X : exists o2, o = ops1 ++ MRequest bs :: o2).
  { clear Ho. revert ops1 Eq. induction o as [|a o IHo]; intros ops1 Eq.
    - cbn in Eq. rewrite forallb_forall in Q. specialize (Q (MRequest bs)). rewrite Eq in Q.
      discriminate (Q ltac:(apply in_or_app; right; left; reflexivity)).
    - destruct ops1 as [|b ops1]; cbn in Eq; injection Eq as -> Eq; [exists o; reflexivity|]. destruct (IHo _ Eq) as [o2 ->]. exists o2. reflexivity. }
  destruct X as [o2 ->]. apply (Ho ops1 bs o2 m eq_refl).
Qed.
Definition weight (l : list (nat * job)) : nat := list_sum (map (fun p => if jb_entered (snd p) then 1 else 2) l).
Lemma weight_cons p l : weight (p :: l) = (if jb_entered (snd p) then 1 else 2) + weight l.
Proof. reflexivity. Qed.
Lemma weight_enter k x r (l : list (nat * job)) : aget k l = Some (Job x r false) -> S (weight (aset k (Job x r true) l)) = weight l.
Proof.
  induction l as [|[k' j] l IH]; cbn [aget aset]; [discriminate|]. destruct (eqb k k').
  - intros G. injection G as ->. rewrite !weight_cons. cbn. lia.
  - intros G. specialize (IH G). rewrite !weight_cons. lia.
Qed.
Lemma weight_adel_le k (l : list (nat * job)) : weight (adel k l) <= weight l.
Proof.
  induction l as [|p l IH]; [reflexivity|]. unfold adel in *. cbn [filter]. destruct (negb (eqb k (fst p))); rewrite ?weight_cons; lia.
Qed.
Lemma weight_adel k j (l : list (nat * job)) : aget k l = Some j -> weight (adel k l) < weight l.
Proof.
  induction l as [|[k' j'] l IH]; cbn [aget]; [discriminate|]. unfold adel in *. cbn [filter fst]. destruct (eqb k k'); cbn [negb].
  - intros _. rewrite weight_cons. pose proof (weight_adel_le k l) as L. unfold adel in L. destruct (jb_entered (snd (k', j'))); lia.
  - intros G. specialize (IH G). rewrite !weight_cons. lia.
Qed.
Lemma work_step s : vr_dead s = false -> (forall k j, aget k (vr_jobs s) = Some j -> mt_cb (jb_method j) <> None) -> vr_jobs s <> [] ->
  exists op s' e, work op = true /\ m_step op s = Some (s', e) /\ weight (vr_jobs s') < weight (vr_jobs s).
Proof.
  intros D Nj J. destruct (vr_jobs s) as [|[k [x r en]] js] eqn:Q; [congruence|]. clear J.
  assert (G : aget k (vr_jobs s) = Some (Job x r en)) by (rewrite Q; cbn; rewrite eqb_refl; reflexivity).
  rewrite <- Q in *. destruct en.
  - exists (MReturn k [] 0). unfold m_step. rewrite D, G. do 2 eexists. split; [reflexivity|]. split; [reflexivity|]. cbn. eapply weight_adel; eauto.
  - exists (MEnter k). unfold m_step. rewrite D, G. specialize (Nj _ _ G). cbn in Nj. destruct (mt_cb x); [|congruence].
    do 2 eexists. split; [reflexivity|]. split; [reflexivity|]. cbn [vr_jobs set_jobs]. pose proof (weight_enter k x r _ G) as W. unfold lt. rewrite W. apply le_n.
Qed.
Lemma finish_lemma host name id ops s tr : m_run ops (server0 host name id) = Some (s, tr) -> callable ops ->
  exists ops' s' tr', forallb work ops' = true /\ m_run (ops ++ ops') (server0 host name id) = Some (s', tr ++ tr') /\ vr_jobs s' = [].
Proof.
  remember (weight (vr_jobs s)) as n eqn:Hn. revert ops s tr Hn.
  induction n as [n IH] using lt_wf_ind. intros ops s tr Hn E H.
  destruct (survive_lemma host name id ops s tr E H) as [D Nj].
  destruct (vr_jobs s) as [|p js] eqn:J.
  - exists [], s, []. split; [reflexivity|]. rewrite !app_nil_r. auto.
  - rewrite <- J in *. destruct (work_step s D Nj ltac:(congruence)) as (op & s1 & e & W & Es & L).
    assert (E1 : m_run (ops ++ [op]) (server0 host name id) = Some (s1, tr ++ e)).
    { apply (m_run_join ops [op] _ s tr s1 e E). cbn. rewrite Es, app_nil_r. reflexivity. }
    destruct (IH (weight (vr_jobs s1)) ltac:(lia) (ops ++ [op]) s1 (tr ++ e) eq_refl E1) as (o' & s' & t' & F & R & V).
    { apply callable_work; [exact H|cbn; rewrite W; reflexivity]. }
    exists (op :: o'), s', (e ++ t'). split; [cbn; rewrite W; exact F|]. split; [|exact V].
    rewrite <- app_assoc in R. rewrite <- app_assoc in R. exact R.
Qed.

(** ** What the client reads *)
Lemma read_unreadable host name id : let r := say_unreadable host name id in (len (ser_response r) < 2 ^ 32)%Z -> de_response (ser_response r) = Ok r.
Proof. intros r L. apply response_rt; [|exact L]. unfold wf_response, wf_header, i32, u32, i64. cbn [rp_header rp_ret h_id h_state r say_unreadable say_unknown head]. lia. Qed.
Lemma read_unknown host name id m : let r := say_unknown host name id m in (len (ser_response r) < 2 ^ 32)%Z -> de_response (ser_response r) = Ok r.
Proof. intros r L. apply response_rt; [|exact L]. unfold wf_response, wf_header, i32, u32, i64. cbn [rp_header rp_ret h_id h_state r say_unreadable say_unknown head]. lia. Qed.
Lemma read_executed host name id m resp ret : let r := say_executed host name id m resp ret in
  i64 ret -> (len (ser_response r) < 2 ^ 32)%Z -> de_response (ser_response r) = Ok r.
Proof. intros r I L. apply response_rt; [|exact L]. unfold wf_response, wf_header, i32, u32, r, say_executed. cbn [rp_header rp_ret h_id h_state head]. split; [lia|exact I]. Qed.

(** ** A described method without callback, and a callback that was removed *)
Definition call_of (m req : text) : list Z := ser_request (Request (Header [] (str "srv") [] m [] 0 0) req).
Lemma described_crash : exists s, m_run [MDescribe (str "m") [] [] [] []; MRequest (call_of (str "m") [7]%Z); MEnter 0]
    (server0 (str "host") (str "srv") (str "1")) = Some (s, [VTerminate 0]) /\ vr_dead s = true.
Proof. eexists. split; vm_compute; reflexivity. Qed.
Lemma removed_called : exists s, m_run [MCallback (str "m") [] [] 5; MRequest (call_of (str "m") [7]%Z); MRemove (str "m"); MEnter 0]
    (server0 (str "host") (str "srv") (str "1")) = Some (s, [VRemoved true; VCall 0 5 (str "m") [] [] [7]%Z]).
Proof. eexists. vm_compute. reflexivity. Qed.
