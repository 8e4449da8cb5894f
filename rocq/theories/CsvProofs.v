(** Proofs about the services of a client. *)
From Verif Require Import Base Sample CsvModel CsvSpec.

Lemma k_run_app a : forall b s s2 tr, k_run (a ++ b) s = Some (s2, tr) ->
  exists s1 tr1 tr2, k_run a s = Some (s1, tr1) /\ k_run b s1 = Some (s2, tr2) /\ tr = tr1 ++ tr2.
Proof.
  induction a as [|op a IH]; intros b s s2 tr E.
  - exists s, [], tr. auto.
  - cbn in *. destruct (k_step op s) as [[s1 e1]|]; [|discriminate].
    destruct (k_run (a ++ b) s1) as [[s3 e3]|] eqn:E3; [|discriminate]. injection E as <- <-.
    destruct (IH b s1 s3 e3 E3) as (s4 & t1 & t2 & A & B & ->). rewrite A. exists s4, (e1 ++ t1), t2. rewrite app_assoc. auto.
Qed.
Lemma k_run_join a : forall b s s1 tr1 s2 tr2, k_run a s = Some (s1, tr1) -> k_run b s1 = Some (s2, tr2) -> k_run (a ++ b) s = Some (s2, tr1 ++ tr2).
Proof.
  induction a as [|op a IH]; intros b s s1 tr1 s2 tr2 E1 E2; cbn in *.
  - injection E1 as <- <-. exact E2.
  - destruct (k_step op s) as [[s3 e3]|]; [|discriminate]. destruct (k_run a s3) as [[s4 e4]|] eqn:E4; [|discriminate].
    injection E1 as <- <-. rewrite (IH b s3 s4 e4 s2 tr2 E4 E2), app_assoc. reflexivity.
Qed.
Lemma k_run_snoc a op s s2 tr : k_run (a ++ [op]) s = Some (s2, tr) ->
  exists s1 tr1 e, k_run a s = Some (s1, tr1) /\ k_step op s1 = Some (s2, e) /\ tr = tr1 ++ e.
Proof.
  intros E. apply k_run_app in E. destruct E as (s1 & t1 & t2 & A & B & ->). cbn in B.
  destruct (k_step op s1) as [[s3 e3]|] eqn:E3; [|discriminate]. injection B as <- <-. rewrite app_nil_r.
  exists s1, t1, e3. auto.
Qed.

Definition has (k : text) (l : list text) : bool := existsb (eqb k) l.
Lemma has_cons k k' l : has k (k' :: l) = (eqb k k' || has k l)%bool. Proof. reflexivity. Qed.
Lemma has_remove k k' l : has k (filter (fun x => negb (eqb k' x)) l) = (negb (eqb k' k) && has k l)%bool.
Proof.
  induction l as [|x l IH]; [cbn; symmetry; apply andb_false_r|]. cbn [filter]. destruct (eqb k' x) eqn:Q; cbn [negb]; rewrite ?has_cons, IH.
  - apply eqb_true in Q. subst x. rewrite (eqb_sym k' k). destruct (eqb k k'); reflexivity.
  - destruct (eqb k x) eqn:B; cbn [orb]; [|reflexivity]. apply eqb_true in B. subst x. rewrite Q. reflexivity.
Qed.
Lemma changes_app k a b : changes k (a ++ b) = changes k a ++ changes k b.
Proof. apply flat_map_app. Qed.

Lemma raise_cases t k s : (exists c, raise t k s = ([KEvent t k c], true) /\ find_cb t (cv_callbacks s) = match c with Some x => Some (Some x) | None => None end) \/
  (raise t k s = ([KTerminate], false) /\ find_cb t (cv_callbacks s) = Some None).
Proof. unfold raise. destruct (find_cb t (cv_callbacks s)) as [[cb|]|]; [left; exists (Some cb)|right|left; exists None]; auto. Qed.

(** ** Alternation *)
Lemma check_alt k : forall l s s' e pre, check l s = (s', e) -> alternating (changes k pre) (has k (cv_connected s)) ->
  alternating (changes k (pre ++ e)) (has k (cv_connected s')).
Proof.
  induction l as [|[k' f] l IH]; intros s s' e pre E H; cbn [check] in E.
  - injection E as <- <-. rewrite app_nil_r. exact H.
  - destruct (f && existsb (eqb k') (cv_connected s))%bool eqn:Q; [|eapply IH; eauto].
    apply andb_prop in Q. destruct Q as [_ Q]. fold (has k' (cv_connected s)) in Q.
    destruct (raise_cases CDisconnected k' s) as [(c & R & _)|[R _]]; rewrite R in E.
    + destruct (check l (set_connected (filter (fun x => negb (eqb k' x)) (cv_connected s)) s)) as [s2 e2] eqn:C. injection E as <- <-.
      replace (pre ++ KEvent CDisconnected k' c :: e2) with ((pre ++ [KEvent CDisconnected k' c]) ++ e2) by (rewrite <- app_assoc; reflexivity). apply (IH _ _ _ _ C).
      rewrite changes_app. cbn [cv_connected set_connected]. rewrite has_remove. cbn.
      destruct (eqb k' k) eqn:B; cbn; [|rewrite app_nil_r; exact H]. apply eqb_true in B. subst k'. apply alt_down. rewrite Q in H. exact H.
    + injection E as <- <-. rewrite changes_app. cbn. rewrite app_nil_r. exact H.
Qed.
Lemma late_same : forall n s s' e, late n s = (s', e) -> cv_known s' = cv_known s /\ cv_sessions s' = cv_sessions s /\ cv_connected s' = cv_connected s /\ cv_callbacks s' = cv_callbacks s /\ forall k, changes k e = [].
Proof.
  induction n as [|n IH]; intros s s' e E; cbn [late] in E.
  - injection E as <- <-. auto 6.
  - destruct (raise_cases CTimeout [] s) as [(c & R & _)|[R _]]; rewrite R in E.
    + destruct (late n s) as [s2 e2] eqn:L. injection E as <- <-. destruct (IH s s2 e2 L) as (A & B & C & D & F). repeat split; auto.
    + injection E as <- <-. auto 6.
Qed.
Lemma alt_step k op s s' e pre : k_step op s = Some (s', e) -> alternating (changes k pre) (has k (cv_connected s)) ->
  alternating (changes k (pre ++ e)) (has k (cv_connected s')).
Proof.
  intros E H. unfold k_step in E. destruct (cv_dead s); [discriminate|]. destruct op as [k'|k'| | |k'|n|t cb|t].
  - fold (has k' (cv_connected s)) in E. destruct (has k' (cv_connected s)) eqn:Q; [injection E as <- <-; rewrite app_nil_r; exact H|].
    destruct (raise_cases CConnected k' s) as [(c & R & _)|[R _]]; rewrite R in E; injection E as <- <-; rewrite changes_app; cbn.
    + destruct (eqb k' k) eqn:B; cbn; rewrite (eqb_sym k k'), B; cbn; [|rewrite app_nil_r; exact H].
      apply eqb_true in B. subst k'. apply alt_up. rewrite Q in H. exact H.
    + rewrite app_nil_r. exact H.
  - injection E as <- <-. rewrite app_nil_r. exact H.
  - injection E as <- <-. rewrite app_nil_r. exact H.
  - injection E as E. eapply check_alt; eauto.
  - destruct (amem k' (cv_sessions s)); [|discriminate]. injection E as <- <-. rewrite app_nil_r. exact H.
  - injection E as E. destruct (late_same _ _ _ _ E) as (_ & _ & C & _ & F). rewrite changes_app, F, app_nil_r, C. exact H.
  - injection E as <- <-. rewrite app_nil_r. exact H.
  - injection E as <- <-. rewrite app_nil_r. exact H.
Qed.
Lemma alternate_lemma ops : forall s tr k, k_run ops csv0 = Some (s, tr) -> alternating (changes k tr) (existsb (eqb k) (cv_connected s)).
Proof.
  induction ops as [|op ops IH] using rev_ind; intros s tr k E.
  - cbn in E. injection E as <- <-. apply alt_nil.
  - apply k_run_snoc in E. destruct E as (s1 & t1 & e & A & B & ->). exact (alt_step k op s1 s e t1 B (IH s1 t1 k A)).
Qed.

(** ** Causes *)
Lemma check_same : forall l s s' e, check l s = (s', e) -> cv_known s' = cv_known s /\ cv_sessions s' = cv_sessions s /\ cv_callbacks s' = cv_callbacks s.
Proof.
  induction l as [|[k' f] l IH]; intros s s' e E; cbn [check] in E; [injection E as <- <-; auto|].
  destruct (f && existsb (eqb k') (cv_connected s))%bool; [|eapply IH; eauto].
  destruct (raise_cases CDisconnected k' s) as [(c & R & _)|[R _]]; rewrite R in E.
  - destruct (check l _) as [s2 e2] eqn:C. injection E as <- <-. apply (IH _ _ _ C).
  - injection E as <- <-. auto.
Qed.
Lemma check_events : forall l s s' e, check l s = (s', e) -> forall t k c, In (KEvent t k c) e -> t = CDisconnected /\ In (k, true) l /\ has k (cv_connected s) = true.
Proof.
  induction l as [|[k' f] l IH]; intros s s' e E t k c I; cbn [check] in E; [injection E as <- <-; destruct I|].
  destruct (f && existsb (eqb k') (cv_connected s))%bool eqn:Q.
  - apply andb_prop in Q. destruct Q as [-> Q]. destruct (raise_cases CDisconnected k' s) as [(x & R & _)|[R _]]; rewrite R in E.
    + destruct (check l _) as [s2 e2] eqn:C. injection E as <- <-. destruct I as [I|I].
      * injection I as <- <- <-. split; [reflexivity|]. split; [left; reflexivity|exact Q].
      * destruct (IH _ _ _ C t k c I) as (A & B & D). split; [exact A|]. split; [right; exact B|]. cbn [cv_connected set_connected] in D.
        rewrite has_remove in D. apply andb_prop in D. tauto.
    + injection E as <- <-. destruct I as [I|[]]. discriminate.
  - destruct (IH _ _ _ E t k c I) as (A & B & D). split; [exact A|]. split; [right; exact B|exact D].
Qed.
Lemma late_events : forall n s s' e, late n s = (s', e) -> forall t k c, In (KEvent t k c) e -> t = CTimeout.
Proof.
  induction n as [|n IH]; intros s s' e E t k c I; cbn [late] in E; [injection E as <- <-; destruct I|].
  destruct (raise_cases CTimeout [] s) as [(x & R & _)|[R _]]; rewrite R in E.
  - destruct (late n s) as [s2 e2] eqn:L. injection E as <- <-. destruct I as [I|I]; [congruence|eapply IH; eauto].
  - injection E as <- <-. destruct I as [I|[]]. discriminate.
Qed.

Lemma fold_refresh_nd l : forall m : list (text * bool), NoDup (keys m) -> NoDup (keys (fold_left (fun l k => if amem k l then l else aset k false l) l m)).
Proof. induction l as [|k l IH]; intros m N; cbn; [exact N|]. apply IH. destruct (amem k m); [exact N|apply nodup_aset, N]. Qed.
Lemma fold_refresh l k : forall m : list (text * bool),
  aget k (fold_left (fun l k => if amem k l then l else aset k false l) l m) = match aget k m with Some b => Some b | None => if has k l then Some false else None end.
Proof.
  induction l as [|x l IH]; intros m; cbn [fold_left]; [cbn; destruct (aget k m); reflexivity|]. rewrite IH, has_cons. unfold amem.
  destruct (aget x m) eqn:Q.
  - destruct (aget k m) eqn:G; [reflexivity|]. destruct (eqb k x) eqn:B; [|reflexivity]. apply eqb_true in B. subst x. congruence.
  - rewrite aget_aset. destruct (eqb k x) eqn:B; [|reflexivity]. apply eqb_true in B. subst x. rewrite Q. reflexivity.
Qed.
Lemma sessions_nd ops : forall s tr, k_run ops csv0 = Some (s, tr) -> NoDup (keys (cv_sessions s)).
Proof.
  induction ops as [|op ops IH] using rev_ind; intros s tr E.
  - cbn in E. injection E as <- <-. constructor.
  - apply k_run_snoc in E. destruct E as (s1 & t1 & e & A & B & ->). specialize (IH s1 t1 A).
    unfold k_step in B. destruct (cv_dead s1); [discriminate|]. destruct op as [k'|k'| | |k'|n|t cb|t].
    + destruct (existsb (eqb k') (cv_connected s1)); [injection B as <- <-; exact IH|]. destruct (raise CConnected k' s1) as [e1 [|]]; injection B as <- <-; exact IH.
    + injection B as <- <-. exact IH.
    + injection B as <- <-. apply fold_refresh_nd, IH.
    + injection B as B. destruct (check_same _ _ _ _ B) as (_ & -> & _). exact IH.
    + destruct (amem k' (cv_sessions s1)); [|discriminate]. injection B as <- <-. apply nodup_aset, IH.
    + injection B as B. destruct (late_same _ _ _ _ B) as (_ & -> & _). exact IH.
    + injection B as <- <-. exact IH.
    + injection B as <- <-. exact IH.
Qed.
Lemma cause_lemma ops op s tr s' e t k c : k_run ops csv0 = Some (s, tr) -> k_step op s = Some (s', e) -> In (KEvent t k c) e ->
  match t with
  | CConnected => op = KAnnounce k /\ has k (cv_connected s) = false
  | CDisconnected => op = KCheck /\ broken k s /\ has k (cv_connected s) = true
  | CTimeout => exists n, op = KLate n
  end.
Proof.
  intros R E I. pose proof (sessions_nd _ _ _ R) as N. unfold k_step in E. destruct (cv_dead s); [discriminate|]. destruct op as [k'|k'| | |k'|n|t' cb|t'].
  - fold (has k' (cv_connected s)) in E. destruct (has k' (cv_connected s)) eqn:Q; [injection E as <- <-; destruct I|].
    destruct (raise_cases CConnected k' s) as [(x & Rs & _)|[Rs _]]; rewrite Rs in E; injection E as <- <-; destruct I as [I|[]]; [|discriminate].
    injection I as <- <- <-. auto.
  - injection E as <- <-. destruct I.
  - injection E as <- <-. destruct I.
  - injection E as E. destruct (check_events _ _ _ _ E t k c I) as (-> & A & B). split; [reflexivity|]. split; [apply in_aget; assumption|exact B].
  - destruct (amem k' (cv_sessions s)); [|discriminate]. injection E as <- <-. destruct I.
  - injection E as E. rewrite (late_events _ _ _ _ E t k c I). eauto.
  - injection E as <- <-. destruct I.
  - injection E as <- <-. destruct I.
Qed.

(** ** Losses are noticed *)
Lemma check_notices : forall l s s' e, check l s = (s', e) -> cv_dead s = false -> cv_dead s' = false ->
  forall k, has k (cv_connected s') = true -> has k (cv_connected s) = true /\ ~ In (k, true) l.
Proof.
  induction l as [|[k' f] l IH]; intros s s' e E D D' k H; cbn [check] in E; [injection E as <- <-; auto|].
  destruct (f && existsb (eqb k') (cv_connected s))%bool eqn:Q.
  - apply andb_prop in Q. destruct Q as [-> Q]. destruct (raise_cases CDisconnected k' s) as [(x & R & _)|[R _]]; rewrite R in E.
    + destruct (check l _) as [s2 e2] eqn:C. injection E as <- <-. destruct (IH _ _ _ C D D' k H) as [A B]. cbn [cv_connected set_connected] in A. rewrite has_remove in A.
      apply andb_prop in A. destruct A as [A1 A2]. split; [exact A2|]. intros [F|F]; [injection F as ->; rewrite eqb_refl in A1; discriminate|auto].
    + injection E as <- <-. discriminate.
  - destruct (IH _ _ _ E D D' k H) as [A B]. split; [exact A|]. intros [F|F]; [|auto]. injection F as -> ->. unfold has in A. rewrite A in Q. discriminate.
Qed.
Lemma notice_lemma ops s tr s' e : k_run ops csv0 = Some (s, tr) -> k_step KCheck s = Some (s', e) -> cv_dead s' = false ->
  forall k, broken k s' -> existsb (eqb k) (cv_connected s') = false.
Proof.
  intros R E D' k B. unfold k_step in E. destruct (cv_dead s) eqn:D; [discriminate|]. injection E as E. destruct (check_same _ _ _ _ E) as (_ & S & _).
  unfold broken in B. rewrite S in B. destruct (existsb (eqb k) (cv_connected s')) eqn:H; [|reflexivity]. exfalso.
  destruct (check_notices _ _ _ _ E D D' k H) as [_ N]. apply N. apply aget_in. exact B.
Qed.

(** ** Sessions *)
Lemma known_announced ops : forall s tr k, k_run ops csv0 = Some (s, tr) -> has k (cv_known s) = announced ops k.
Proof.
  induction ops as [|op ops IH] using rev_ind; intros s tr k E.
  - cbn in E. injection E as <- <-. reflexivity.
  - apply k_run_snoc in E. destruct E as (s1 & t1 & e & A & B & ->). specialize (IH s1 t1 k A).
    unfold announced. rewrite fold_left_app. fold (announced ops k). cbn [fold_left]. rewrite <- IH.
    unfold k_step in B. destruct (cv_dead s1); [discriminate|]. destruct op as [k'|k'| | |k'|n|t cb|t].
    + assert (X : cv_known s = if existsb (eqb k') (cv_known s1) then cv_known s1 else k' :: cv_known s1).
      { destruct (existsb (eqb k') (cv_connected s1)); [injection B as <- <-; reflexivity|]. destruct (raise CConnected k' s1) as [e1 [|]]; injection B as <- <-; reflexivity. }
      rewrite X. destruct (existsb (eqb k') (cv_known s1)) eqn:Q.
      * destruct (eqb k' k) eqn:F; [|reflexivity]. apply eqb_true in F. subst k'. exact Q.
      * rewrite has_cons, (eqb_sym k k'). destruct (eqb k' k); reflexivity.
    + injection B as <- <-. cbn [cv_known]. rewrite has_remove. destruct (eqb k' k); reflexivity.
    + injection B as <- <-. reflexivity.
    + injection B as B. destruct (check_same _ _ _ _ B) as (-> & _). reflexivity.
    + destruct (amem k' (cv_sessions s1)); [|discriminate]. injection B as <- <-. reflexivity.
    + injection B as B. destruct (late_same _ _ _ _ B) as (-> & _). reflexivity.
    + injection B as <- <-. reflexivity.
    + injection B as <- <-. reflexivity.
Qed.
Lemma refresh_lemma ops s tr s' e k : k_run ops csv0 = Some (s, tr) -> announced ops k = true -> k_step KRefresh s = Some (s', e) ->
  usable k s' \/ broken k s.
Proof.
  intros R A E. unfold k_step in E. destruct (cv_dead s); [discriminate|]. injection E as <- <-. unfold usable, broken. cbn [cv_sessions].
  rewrite fold_refresh, (known_announced _ _ _ _ R), A. destruct (aget k (cv_sessions s)) as [[|]|]; auto.
Qed.
Lemma refresh_new ops s tr k : k_run ops csv0 = Some (s, tr) -> cv_dead s = false -> announced ops k = true -> aget k (cv_sessions s) = None ->
  exists s', k_step KRefresh s = Some (s', []) /\ usable k s'.
Proof.
  intros R D A N. unfold k_step. rewrite D. eexists. split; [reflexivity|]. unfold usable. cbn [cv_sessions]. rewrite fold_refresh, N, (known_announced _ _ _ _ R), A. reflexivity.
Qed.

(** ** No way back *)
Lemma broken_step k op s s' e : broken k s -> k_step op s = Some (s', e) -> broken k s'.
Proof.
  unfold broken. intros H E. unfold k_step in E. destruct (cv_dead s); [discriminate|]. destruct op as [k'|k'| | |k'|n|t cb|t].
  - destruct (existsb (eqb k') (cv_connected s)); [injection E as <- <-; exact H|]. destruct (raise CConnected k' s) as [e1 [|]]; injection E as <- <-; exact H.
  - injection E as <- <-. exact H.
  - injection E as <- <-. cbn [cv_sessions]. rewrite fold_refresh, H. reflexivity.
  - injection E as E. destruct (check_same _ _ _ _ E) as (_ & -> & _). exact H.
  - destruct (amem k' (cv_sessions s)); [|discriminate]. injection E as <- <-. cbn [cv_sessions]. rewrite aget_aset. destruct (eqb k k'); [reflexivity|exact H].
  - injection E as E. destruct (late_same _ _ _ _ E) as (_ & -> & _). exact H.
  - injection E as <- <-. exact H.
  - injection E as <- <-. exact H.
Qed.
Lemma broken_forever k ops : forall s s' tr, broken k s -> k_run ops s = Some (s', tr) -> broken k s'.
Proof.
  induction ops as [|op ops IH]; intros s s' tr H E; cbn in E; [injection E as <- <-; exact H|].
  destruct (k_step op s) as [[s1 e1]|] eqn:E1; [|discriminate]. destruct (k_run ops s1) as [[s2 e2]|] eqn:E2; [|discriminate]. injection E as <- <-.
  eapply IH; [|exact E2]. eapply broken_step; eauto.
Qed.
Definition flapping (k : text) (n : nat) : list kop := [KAdd CConnected 1; KAdd CDisconnected 2; KAnnounce k; KRefresh; KFail k] ++ concat (repeat [KCheck; KAnnounce k] n).
Lemma flap_round k s : cv_dead s = false -> cv_known s = [k] -> cv_sessions s = [(k, true)] -> cv_connected s = [k] ->
  cv_callbacks s = [(CDisconnected, Some 2); (CConnected, Some 1)] ->
  forall n, k_run (concat (repeat [KCheck; KAnnounce k] n)) s = Some (s, concat (repeat [KEvent CDisconnected k (Some 2); KEvent CConnected k (Some 1)] n)).
Proof.
  intros D Kn Se Co Cb n. assert (X : s = Csv [k] [(k, true)] [k] [(CDisconnected, Some 2); (CConnected, Some 1)] false) by (destruct s; cbn in *; subst; reflexivity).
  clear D Kn Se Co Cb. subst s. induction n as [|n IH]; [reflexivity|]. cbn [repeat concat]. apply (k_run_join [KCheck; KAnnounce k] _ _ (Csv [k] [(k, true)] [k] [(CDisconnected, Some 2); (CConnected, Some 1)] false)); [|exact IH].
  cbn.
  repeat (rewrite eqb_refl; cbn). reflexivity.
Qed.
Lemma flapping_lemma k n : exists s, k_run (flapping k n) csv0 =
    Some (s, KEvent CConnected k (Some 1) :: concat (repeat [KEvent CDisconnected k (Some 2); KEvent CConnected k (Some 1)] n)) /\
  broken k s /\ cv_is_connected s = true.
Proof.
  exists (Csv [k] [(k, true)] [k] [(CDisconnected, Some 2); (CConnected, Some 1)] false). split; [|split; [unfold broken; cbn; rewrite eqb_refl; reflexivity|reflexivity]].
  unfold flapping. change (KEvent CConnected k (Some 1) :: concat (repeat [KEvent CDisconnected k (Some 2); KEvent CConnected k (Some 1)] n)) with
    ([KEvent CConnected k (Some 1)] ++ concat (repeat [KEvent CDisconnected k (Some 2); KEvent CConnected k (Some 1)] n)).
  eapply k_run_join; [|apply flap_round; reflexivity]. cbn. unfold amem. cbn. rewrite !eqb_refl. cbn. rewrite ?eqb_refl. reflexivity.
Qed.

(** ** Callbacks *)
Lemma find_in_force ops : forall s tr, k_run ops csv0 = Some (s, tr) -> forall t, find_cb t (cv_callbacks s) = in_force ops t.
Proof.
  induction ops as [|op ops IH] using rev_ind; intros s tr E t.
  - cbn in E. injection E as <- <-. reflexivity.
  - apply k_run_snoc in E. destruct E as (s1 & t1 & e & A & B & ->). specialize (IH s1 t1 A t). unfold in_force. rewrite fold_left_app. fold (in_force ops t). cbn [fold_left]. rewrite <- IH.
    unfold k_step in B. destruct (cv_dead s1); [discriminate|]. destruct op as [k'|k'| | |k'|n|t' cb|t'].
    + destruct (existsb (eqb k') (cv_connected s1)); [injection B as <- <-; reflexivity|]. destruct (raise CConnected k' s1) as [e1 [|]]; injection B as <- <-; reflexivity.
    + injection B as <- <-. reflexivity.
    + injection B as <- <-. reflexivity.
    + injection B as B. destruct (check_same _ _ _ _ B) as (_ & _ & ->). reflexivity.
    + destruct (amem k' (cv_sessions s1)); [|discriminate]. injection B as <- <-. reflexivity.
    + injection B as B. destruct (late_same _ _ _ _ B) as (_ & _ & _ & -> & _). reflexivity.
    + injection B as <- <-. cbn. destruct (ctype_eq t t'); reflexivity.
    + injection B as <- <-. cbn. destruct (ctype_eq t t'); reflexivity.
Qed.
Definition fine (s : csv) (e : list kev) (s' : csv) : Prop :=
  (forall t k c, In (KEvent t k c) e -> find_cb t (cv_callbacks s) = match c with Some cb => Some (Some cb) | None => None end) /\
  (cv_dead s' = true -> exists t, find_cb t (cv_callbacks s) = Some None).
Lemma check_fine : forall l s s' e, cv_dead s = false -> check l s = (s', e) -> fine s e s'.
Proof.
  induction l as [|[k' f] l IH]; intros s s' e D E; cbn [check] in E.
  - injection E as <- <-. split; [intros t k c []|congruence].
  - destruct (f && existsb (eqb k') (cv_connected s))%bool; [|eapply IH; eauto].
    destruct (raise_cases CDisconnected k' s) as [(x & R & F)|[R F]]; rewrite R in E.
    + destruct (check l _) as [s2 e2] eqn:C. injection E as <- <-. destruct (IH (set_connected (filter (fun x => negb (eqb k' x)) (cv_connected s)) s) s2 e2 D C) as [H1 H2]. split; [|exact H2].
      intros t k c [I|I]; [injection I as <- <- <-; exact F|exact (H1 t k c I)].
    + injection E as <- <-. split; [intros t k c [I|[]]; discriminate|intros _; exists CDisconnected; exact F].
Qed.
Lemma late_fine : forall n s s' e, cv_dead s = false -> late n s = (s', e) -> fine s e s'.
Proof.
  induction n as [|n IH]; intros s s' e D E; cbn [late] in E.
  - injection E as <- <-. split; [intros t k c []|congruence].
  - destruct (raise_cases CTimeout [] s) as [(x & R & F)|[R F]]; rewrite R in E.
    + destruct (late n s) as [s2 e2] eqn:C. injection E as <- <-. destruct (IH s s2 e2 D C) as [H1 H2]. split; [|exact H2].
      intros t k c [I|I]; [injection I as <- <- <-; exact F|exact (H1 t k c I)].
    + injection E as <- <-. split; [intros t k c [I|[]]; discriminate|intros _; exists CTimeout; exact F].
Qed.
Lemma step_fine op s s' e : k_step op s = Some (s', e) -> fine s e s'.
Proof.
  intros E. unfold k_step in E. destruct (cv_dead s) eqn:D; [discriminate|]. destruct op as [k'|k'| | |k'|n|t' cb|t'].
  - destruct (existsb (eqb k') (cv_connected s)); [injection E as <- <-; split; [intros t k c []|discriminate]|].
    destruct (raise_cases CConnected k' s) as [(x & R & F)|[R F]]; rewrite R in E; injection E as <- <-.
    + split; [intros t k c [I|[]]; injection I as <- <- <-; exact F|discriminate].
    + split; [intros t k c [I|[]]; discriminate|intros _; exists CConnected; exact F].
  - injection E as <- <-. split; [intros t k c []|discriminate].
  - injection E as <- <-. split; [intros t k c []|discriminate].
  - injection E as E. eapply check_fine; eauto.
  - destruct (amem k' (cv_sessions s)); [|discriminate]. injection E as <- <-. split; [intros t k c []|discriminate].
  - injection E as E. eapply late_fine; eauto.
  - injection E as <- <-. split; [intros t k c []|discriminate].
  - injection E as <- <-. split; [intros t k c []|discriminate].
Qed.
Lemma client_events ops op s tr s' e : k_run ops csv0 = Some (s, tr) -> k_step op s = Some (s', e) ->
  (forall t k c, In (KEvent t k c) e -> in_force ops t = match c with Some cb => Some (Some cb) | None => None end) /\
  (cv_dead s' = true -> exists t, in_force ops t = Some None).
Proof.
  intros R E. pose proof (find_in_force _ _ _ R) as F. destruct (step_fine _ _ _ _ E) as [A B]. split.
  - intros t k c I. rewrite <- F. eapply A; eauto.
  - intros D. destruct (B D) as [t G]. exists t. rewrite <- F. exact G.
Qed.
Lemma in_force_none ops t : (forall t', ~ In (KRem t') ops) -> in_force ops t <> Some None.
Proof.
  induction ops as [|op ops IH] using rev_ind; intros R; [discriminate|]. unfold in_force. rewrite fold_left_app. fold (in_force ops t). cbn [fold_left].
  specialize (IH ltac:(intros t' H; apply (R t'), in_or_app; auto)). destruct op; try exact IH.
  - destruct (ctype_eq t t0); [discriminate|exact IH].
  - destruct (R t0). apply in_or_app. right. left. reflexivity.
Qed.
Lemma client_survives ops : forall s tr, k_run ops csv0 = Some (s, tr) -> (forall t, ~ In (KRem t) ops) -> cv_dead s = false.
Proof.
  induction ops as [|op ops IH] using rev_ind; intros s tr E R.
  - cbn in E. injection E as <- <-. reflexivity.
  - apply k_run_snoc in E. destruct E as (s1 & t1 & e & A & B & ->). destruct (client_events _ _ _ _ _ _ A B) as [_ D].
    destruct (cv_dead s); [|reflexivity]. destruct (D eq_refl) as [t G]. exfalso. apply (in_force_none ops t); [|exact G]. intros t' H. apply (R t'), in_or_app. auto.
Qed.
Lemma client_removed t : exists ops s tr, k_run ([KAdd t 1; KRem t] ++ ops) csv0 = Some (s, tr ++ [KTerminate]) /\ cv_dead s = true.
Proof.
  destruct t.
  - exists [KAnnounce (str "k")]. do 2 eexists. split; [|shelve]. instantiate (1 := []). vm_compute. reflexivity. Unshelve. reflexivity.
  - exists [KAnnounce (str "k"); KRefresh; KFail (str "k"); KCheck]. do 2 eexists. split; [|shelve]. instantiate (1 := [KEvent CConnected (str "k") None]). vm_compute. reflexivity. Unshelve. reflexivity.
  - exists [KLate 1]. do 2 eexists. split; [|shelve]. instantiate (1 := []). vm_compute. reflexivity. Unshelve. reflexivity.
Qed.

Lemma alternating_fun l : forall a b, alternating l a -> alternating l b -> a = b.
Proof.
  assert (forall b, alternating l b -> b = match rev l with CConnected :: _ => true | _ => false end) as H.
  { intros b B. destruct B; rewrite ?rev_app_distr; reflexivity. }
  intros a b A B. rewrite (H a A), (H b B). reflexivity.
Qed.
Lemma client_connected ops s tr : k_run ops csv0 = Some (s, tr) -> cv_is_connected s = true <-> exists k, alternating (changes k tr) true.
Proof.
  intros E. unfold cv_is_connected. split.
  - destruct (cv_connected s) as [|k l] eqn:C; [discriminate|]. intros _. exists k. pose proof (alternate_lemma ops s tr k E) as A.
    rewrite C in A. cbn [existsb] in A. rewrite eqb_refl in A. exact A.
  - intros [k A]. pose proof (alternate_lemma ops s tr k E) as B. pose proof (alternating_fun _ _ _ A B) as Q.
    destruct (cv_connected s); [discriminate|reflexivity].
Qed.
