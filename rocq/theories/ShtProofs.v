(** Proofs about asking processes to shut down. *)
From Coq Require Import Lia Permutation.
From Verif Require Import Base Sample EvtModel EvtProofs NamModel NamSpec NamProofs ShtModel ShtSpec.

(** ** The steps, one by one *)
Definition actor (op : shop) : nat := match op with SOk | SDie => 0 | SAsk r | SGone r => S r end.

Inductive opening (c : nat) (e : esys) : esys -> Prop :=
| op_join id : ephase_of e c = EAbsent -> es_link e = Some id -> opening c e (set_ephase e c (EOpened true id false))
| op_miss : ephase_of e c = EAbsent -> es_link e = None -> opening c e (set_ephase e c (EMissing true))
| op_null ow id : ephase_of e c = EMissing ow -> es_link e = Some id -> opening c e (set_ephase e c (ENull ow))
| op_create ow : ephase_of e c = EMissing ow -> es_link e = None ->
    opening c e (ESys (S (es_next e)) (aset (es_next e) (EFile false false) (es_files e)) (Some (es_next e))
                   (aset c (ECreating ow (es_next e) false) (es_cls e)))
| op_trunc ow id f : ephase_of e c = ECreating ow id false -> aget id (es_files e) = Some f ->
    opening c e (set_ephase (set_efile e id (EFile true (ef_set f))) c (ECreating ow id true))
| op_init ow id f : ephase_of e c = ECreating ow id true -> aget id (es_files e) = Some f ->
    opening c e (set_ephase (set_efile e id (EFile (ef_sized f) false)) c (EOpened ow id false))
| op_no ow id b : ephase_of e c = ECreating ow id b -> aget id (es_files e) = None -> opening c e e.

Inductive mic : shop -> sevt -> sevt -> option bool -> Prop :=
| mc_die e q : mic SDie (SEvt e q) (SEvt (set_ephase e 0 EAbsent) q) None
| mc_gone e q r : aget r q <> Some true -> mic (SGone r) (SEvt e q) (SEvt (set_ephase e (S r) EAbsent) (aset r true q)) None
| mc_idle e q r op : op = SAsk r \/ op = SGone r -> aget r q = Some true -> mic op (SEvt e q) (SEvt e q) None
| mc_open e q e' op : op = SOk \/ (exists r, op = SAsk r /\ aget r q = None) -> opening (actor op) e e' ->
    mic op (SEvt e q) (SEvt e' q) None
| mc_set e q r ow id f : aget r q = None -> ephase_of e (S r) = EOpened ow id false -> aget id (es_files e) = Some f ->
    ef_sized f = true -> mic (SAsk r) (SEvt e q) (SEvt (set_efile e id (EFile true true)) (aset r false q)) None
| mc_setno e q r : aget r q = None ->
    (exists ow, ephase_of e (S r) = ENull ow) \/
    (exists ow id w, ephase_of e (S r) = EOpened ow id w /\ (w = true \/ aget id (es_files e) = None)) ->
    mic (SAsk r) (SEvt e q) (SEvt e (aset r false q)) None
| mc_close e q r ow id : aget r q = Some false -> ephase_of e (S r) = EOpened ow id false ->
    mic (SAsk r) (SEvt e q) (SEvt (ESys (es_next e) (es_files e) (if ow then None else es_link e) (aset (S r) EAbsent (es_cls e))) (aset r true q)) None
| mc_closenull e q r ow : aget r q = Some false -> ephase_of e (S r) = ENull ow ->
    mic (SAsk r) (SEvt e q) (SEvt (set_ephase e (S r) EAbsent) (aset r true q)) None
| mc_closeno e q r : aget r q = Some false -> (forall ow id, ephase_of e (S r) <> EOpened ow id false) ->
    mic (SAsk r) (SEvt e q) (SEvt e (aset r true q)) None
| mc_null e q ow : ephase_of e 0 = ENull ow -> mic SOk (SEvt e q) (SEvt e q) (Some true)
| mc_yes e q ow id f : ephase_of e 0 = EOpened ow id false -> aget id (es_files e) = Some f -> ef_sized f = true ->
    ef_set f = false -> mic SOk (SEvt e q) (SEvt e q) (Some true)
| mc_no e q ow id f : ephase_of e 0 = EOpened ow id false -> aget id (es_files e) = Some f -> ef_sized f = true ->
    ef_set f = true -> mic SOk (SEvt e q) (SEvt (set_efile e id (EFile true false)) q) (Some false)
| mc_okno e q ow id w : ephase_of e 0 = EOpened ow id w -> w = true \/ aget id (es_files e) = None ->
    mic SOk (SEvt e q) (SEvt e q) None.

Lemma open_then_step c e last e' r :
  (forall ow, ephase_of e c <> ENull ow) -> (forall ow id w, ephase_of e c <> EOpened ow id w) ->
  e_step (open_then e c last) e = Some (e', r) -> opening c e e' /\ (forall b, r <> VGot b) /\
  (forall x, last = VSet x -> open_then e c last <> VSet x).
Proof.
  intros N1 N2. unfold open_then. destruct (ephase_of e c) as [|ow|ow id b|ow|ow id w] eqn:P.
  - cbn [e_step]. rewrite P. destruct (es_link e) eqn:L; intro H; injection H as <- <-;
      (split; [econstructor; eassumption|split; discriminate]).
  - cbn [e_step]. rewrite P. destruct (es_link e) eqn:L; intro H; injection H as <- <-;
      (split; [econstructor; eassumption|split; discriminate]).
  - destruct b; cbn [e_step]; rewrite P; destruct (aget id (es_files e)) eqn:F; intro H; injection H as <- <-;
      (split; [econstructor; eassumption|split; discriminate]).
  - exfalso; eapply N1; reflexivity.
  - exfalso; eapply N2; reflexivity.
Qed.

Lemma step_mic op s s' a : se_step op s = Some (s', a) -> mic op s s' a.
Proof.
  destruct s as [e q]. destruct op as [|r| |r]; cbn [se_step se_sys se_reqs].
  - destruct (ephase_of e 0) as [|ow|ow id b|ow|ow id w] eqn:P;
      try (destruct (e_step _ e) as [[e' x]|] eqn:E; [|discriminate];
           apply open_then_step in E; [|intros; congruence|intros; congruence]; destruct E as (O & NG & _);
           intro H; injection H as <- <-; destruct x; try (exfalso; eapply NG; reflexivity);
           apply mc_open; auto).
    + unfold open_then. rewrite P. cbn [e_step]. rewrite P. intro H; injection H as <- <-. econstructor; eassumption.
    + unfold open_then. rewrite P. cbn [e_step]. rewrite P. destruct w.
      * intro H; injection H as <- <-. eapply mc_okno; [eassumption|left; reflexivity].
      * destruct (aget id (es_files e)) as [f|] eqn:F.
        -- destruct (ef_sized f) eqn:Z; cbn [negb]; [|discriminate].
           destruct (ef_set f) eqn:St; intro H; injection H as <- <-; econstructor; eassumption.
        -- intro H; injection H as <- <-. eapply mc_okno; [eassumption|right; assumption].
  - destruct (aget r q) as [[|]|] eqn:Q.
    + intro H; injection H as <- <-. eapply mc_idle; eauto.
    + cbn [e_step]. destruct (ephase_of e (S r)) as [|ow|ow id b|ow|ow id [|]] eqn:P;
        try (intro H; injection H as <- <-; apply mc_closeno; [assumption|intros; congruence]).
      * intro H; injection H as <- <-. eapply mc_closenull; eassumption.
      * assert (X : mic (SAsk r) (SEvt e q) (SEvt (ESys (es_next e) (es_files e) (if ow then None else es_link e)
                      (aset (S r) EAbsent (es_cls e))) (aset r true q)) None) by (eapply mc_close; eassumption).
        destruct ow; intro H; injection H as <- <-; exact X.
    + destruct (ephase_of e (S r)) as [|ow|ow id b|ow|ow id w] eqn:P;
        try (destruct (e_step _ e) as [[e' x]|] eqn:E; [|discriminate];
             pose proof E as E0; apply open_then_step in E; [|intros; congruence|intros; congruence];
             destruct E as (O & _ & NS); unfold open_then; rewrite P;
             intro H; injection H as <- <-; try destruct b; (apply mc_open; [right; exists r; auto|exact O])).
      * unfold open_then. rewrite P. cbn [e_step]. rewrite P. intro H; injection H as <- <-.
        apply mc_setno; [assumption|left; eauto].
      * unfold open_then. rewrite P. cbn [e_step]. rewrite P. destruct w.
        -- intro H; injection H as <- <-. apply mc_setno; [assumption|right; eauto 7].
        -- destruct (aget id (es_files e)) as [f|] eqn:F.
           ++ destruct (ef_sized f) eqn:Z; cbn [negb]; [|discriminate].
              intro H; injection H as <- <-. eapply mc_set; eassumption.
           ++ intro H; injection H as <- <-. apply mc_setno; [assumption|right; eauto 7].
  - intro H; injection H as <- <-. apply mc_die.
  - destruct (aget r q) as [[|]|] eqn:Q; intro H; injection H as <- <-;
      first [eapply mc_idle; eauto; fail | apply mc_gone; congruence].
Qed.

Lemma run_cons op ops s s2 l : se_run (op :: ops) s = Some (s2, l) ->
  exists s1 a l1, mic op s s1 a /\ se_step op s = Some (s1, a) /\ se_run ops s1 = Some (s2, l1) /\
    l = match a with Some b => b :: l1 | None => l1 end.
Proof.
  cbn. destruct (se_step op s) as [[s1 a]|] eqn:E; [|discriminate].
  destruct (se_run ops s1) as [[s3 l1]|] eqn:R; [|discriminate]. intro H; injection H as <- <-.
  exists s1, a, l1. repeat split; auto. apply step_mic, E.
Qed.
Lemma run_app ops1 : forall ops2 s s2 l, se_run (ops1 ++ ops2) s = Some (s2, l) ->
  exists s1 l1 l2, se_run ops1 s = Some (s1, l1) /\ se_run ops2 s1 = Some (s2, l2) /\ l = l1 ++ l2.
Proof.
  induction ops1 as [|op ops1 IH]; intros ops2 s s2 l.
  - cbn. intro H. exists s, [], l. auto.
  - rewrite <- app_comm_cons. intro H. apply run_cons in H as (s1 & a & l1 & M & E & R & ->).
    apply IH in R as (s3 & k1 & k2 & R1 & R2 & ->). cbn. rewrite E, R1.
    exists s3, (match a with Some b => b :: k1 | None => k1 end), k2. repeat split; auto. destruct a; reflexivity.
Qed.

(** ** Well-formed states *)
Definition phase_wf (e : esys) (p : ephase) : Prop :=
  match p with
  | EAbsent => True
  | EMissing ow | ENull ow => ow = true
  | ECreating ow id _ => ow = true /\ id < es_next e
  | EOpened ow id w => ow = true /\ id < es_next e /\ w = false
  end.
Record wf (s : sevt) : Prop := Wf {
  wf_link : forall id, es_link (se_sys s) = Some id -> id < es_next (se_sys s);
  wf_phase : forall c, phase_wf (se_sys s) (ephase_of (se_sys s) c);
  wf_file : forall id, id < es_next (se_sys s) -> aget id (es_files (se_sys s)) <> None;
  wf_nofile : forall id, es_next (se_sys s) <= id -> aget id (es_files (se_sys s)) = None;
  wf_nodup : NoDup (keys (es_files (se_sys s)));
  wf_reqs : NoDup (keys (se_reqs s)) }.
Lemma wf_init : wf sevt_init.
Proof. split; cbn; try constructor; try discriminate; try lia; auto. Qed.

Lemma ephase_aset n fs l cls c p x : ephase_of (ESys n fs l (aset c p cls)) x = if Nat.eqb x c then p else ephase_of (ESys n fs l cls) x.
Proof. exact (ephase_set (ESys n fs l cls) c p x). Qed.
Lemma ephase_any e n fs l x : ephase_of (ESys n fs l (es_cls e)) x = ephase_of e x.
Proof. reflexivity. Qed.
Lemma phase_wf_next e e' p : es_next e <= es_next e' -> phase_wf e p -> phase_wf e' p.
Proof. intros L. destruct p; cbn; intuition lia. Qed.

Lemma wf_set_phase e q q' c p : wf (SEvt e q) -> NoDup (keys q') -> phase_wf e p -> wf (SEvt (set_ephase e c p) q').
Proof.
  intros [W1 W2 W3 W4 W5 W6] Q P. split; cbn in *; auto.
  intro x. rewrite ephase_set. destruct (Nat.eqb x c); [exact P|apply W2].
Qed.
Lemma wf_set_file e q q' id f : wf (SEvt e q) -> NoDup (keys q') -> id < es_next e -> wf (SEvt (set_efile e id f) q').
Proof.
  intros [W1 W2 W3 W4 W5 W6] Q L. split; cbn in *; auto.
  - intros j J. rewrite aget_aset. destruct (eqb j id); [discriminate|auto].
  - intros j J. rewrite aget_aset. destruct (eqb j id) eqn:E; [apply eqb_true in E; lia|auto].
  - apply nodup_aset, W5.
Qed.
Lemma wf_reqs_only e q q' : wf (SEvt e q) -> NoDup (keys q') -> wf (SEvt e q').
Proof. intros [W1 W2 W3 W4 W5 W6] Q. split; auto. Qed.

Lemma opening_wf c e e' q : opening c e e' -> wf (SEvt e q) -> wf (SEvt e' q).
Proof.
  intros O W. pose proof W as W0. destruct W0 as [W1 W2 W3 W4 W5 W6]; cbn in *. destruct O as [id P L|P L|ow id P L|ow P L|ow id f P F|ow id f P F|ow id b P F].
  - apply wf_set_phase with q; auto. cbn. auto.
  - apply wf_set_phase with q; auto. reflexivity.
  - apply wf_set_phase with q; auto. cbn. specialize (W2 c). rewrite P in W2. exact W2.
  - split; cbn [se_sys se_reqs es_next es_files es_link]; auto.
    + intros id H. injection H as <-. lia.
    + intro x. rewrite ephase_aset. destruct (Nat.eqb x c).
      * cbn. specialize (W2 c). rewrite P in W2. auto.
      * eapply phase_wf_next; [|apply W2]. cbn; lia.
    + intros id H. rewrite aget_aset. destruct (eqb id (es_next e)) eqn:E; [discriminate|].
      apply W3. apply eqb_false in E. lia.
    + intros id H. rewrite aget_aset. destruct (eqb id (es_next e)) eqn:E; [apply eqb_true in E; lia|]. apply W4; lia.
    + apply nodup_aset, W5.
  - pose proof (W2 c) as X. rewrite P in X. destruct X as [X1 X2].
    eapply wf_set_phase; [eapply wf_set_file; eassumption|assumption|split; assumption].
  - pose proof (W2 c) as X. rewrite P in X. destruct X as [X1 X2].
    eapply wf_set_phase; [eapply wf_set_file; eassumption|assumption|cbn; auto].
  - exact W.
Qed.
Lemma mic_wf op s s' a : mic op s s' a -> wf s -> wf s'.
Proof.
  intros M W. pose proof (wf_reqs _ W) as Q.
  assert (QA : forall r b, NoDup (keys (aset r b (se_reqs s)))) by (intros; apply nodup_aset, Q).
  destruct M; cbn [se_reqs] in *; auto; try (eapply wf_set_phase; [exact W|auto|exact Logic.I]);
    try (eapply wf_reqs_only; [exact W|auto]).
  - eapply opening_wf; eassumption.
  - eapply wf_set_file; [exact W|auto|]. pose proof (wf_phase _ W (S r)) as X. cbn [se_sys] in X. rewrite H0 in X. cbn in X. tauto.
  - destruct W as [W1 W2 W3 W4 W5 W6]. split; cbn in *; auto.
    + intros j J. destruct ow; [discriminate|auto].
    + intro x. rewrite ephase_aset, ephase_any. destruct (Nat.eqb x (S r)); [exact Logic.I|]. eapply phase_wf_next; [|apply W2]. cbn; lia.
  - eapply wf_set_file; [exact W|auto|]. pose proof (wf_phase _ W 0) as X. cbn [se_sys] in X. rewrite H in X. cbn in X. tauto.
Qed.
Lemma run_wf ops : forall s s' l, wf s -> se_run ops s = Some (s', l) -> wf s'.
Proof.
  induction ops as [|op ops IH]; intros s s' l W H; [injection H as <- <-; exact W|].
  apply run_cons in H as (s1 & a & l1 & M & _ & R & _). eapply IH; [|exact R]. eapply mic_wf; eassumption.
Qed.

(** ** A process that has opened its event keeps it *)
Lemma opened_next s id : wf s -> has_opened s id -> id < es_next (se_sys s).
Proof. intros W [P _]. pose proof (wf_phase _ W 0) as X. rewrite P in X. cbn in X. tauto. Qed.
Lemma keep_opened op s s' a id : wf s -> mic op s s' a -> op <> SDie -> has_opened s id -> has_opened s' id.
Proof.
  intros W M D H. pose proof (opened_next _ _ W H) as L. destruct H as [P C].
  assert (Ph : forall n fs l c p, (c = 0 -> p = EOpened true id false) -> (forall ow b, p <> ECreating ow id b) ->
             ephase_of (ESys n fs l (aset c p (es_cls (se_sys s)))) 0 = EOpened true id false /\
             forall c' ow b, ephase_of (ESys n fs l (aset c p (es_cls (se_sys s)))) c' <> ECreating ow id b).
  { intros n fs l c p P0 Pc. split; [|intros c' ow b]; rewrite ephase_aset, ephase_any.
    - destruct (Nat.eqb 0 c) eqn:E; [apply P0; symmetry; apply Nat.eqb_eq, E|exact P].
    - destruct (Nat.eqb c' c) eqn:E; [apply Pc|apply C]. }
  assert (Pz : forall n fs l, ephase_of (ESys n fs l (es_cls (se_sys s))) 0 = EOpened true id false /\
             forall c' ow b, ephase_of (ESys n fs l (es_cls (se_sys s))) c' <> ECreating ow id b) by (intros; split; auto).
  destruct M; try contradiction; unfold has_opened; cbn [se_sys] in *;
    try (split; assumption); try apply Pz; try (apply Ph; [discriminate|discriminate]).
  destruct H0; try (split; assumption);
    match goal with
    | |- context [aset (es_next e)] =>
        apply Ph; [intro Z; rewrite Z in *; congruence|intros ow' b' X; injection X as _ X _; lia]
    | H1 : ephase_of e (actor op) = ECreating _ ?j _ |- _ =>
        apply Ph; [intro Z; rewrite Z in *; congruence
                  |intros ow' b' X; first [discriminate X | injection X as _ X _; subst j; exact (C _ _ _ H1)]]
    | _ => apply Ph; [intro Z; rewrite Z in *; congruence|discriminate]
    end.
Qed.
Lemma keep_unlinked op s s' a id : wf s -> mic op s s' a -> id < es_next (se_sys s) ->
  es_link (se_sys s) <> Some id -> es_link (se_sys s') <> Some id.
Proof.
  intros W M L N. destruct M; cbn in *; auto.
  - destruct H0; cbn; auto. intro X; injection X as X; lia.
  - destruct ow; [discriminate|auto].
Qed.
Lemma keep_next op s s' a : mic op s s' a -> es_next (se_sys s) <= es_next (se_sys s').
Proof. intros M. destruct M; cbn; auto. destruct H0; cbn; auto. Qed.
(** The flag of the process's file changes only when a request that has it open sets it, and when
    the process answers no. *)
Lemma keep_file op s s' a id : wf s -> mic op s s' a -> has_opened s id ->
  aget id (es_files (se_sys s')) = aget id (es_files (se_sys s)) \/
  (exists r, op = SAsk r /\ aget r (se_reqs s) = None /\ ephase_of (se_sys s) (S r) = EOpened true id false /\
     aget id (es_files (se_sys s')) = Some (EFile true true)) \/
  (op = SOk /\ a = Some false /\ aget id (es_files (se_sys s')) = Some (EFile true false)).
Proof.
  intros W M H. pose proof (opened_next _ _ W H) as L. destruct H as [P C].
  destruct M; cbn in *; auto.
  - destruct H0; cbn; auto; left; rewrite aget_aset_other; auto; try lia; intro X; subst id0; eapply C; eassumption.
  - destruct (Nat.eq_dec id0 id) as [->|N].
    + right; left. exists r. rewrite aget_aset_same. pose proof (wf_phase _ W (S r)) as X. cbn [se_sys] in X.
      rewrite H0 in X. destruct X as [-> _]. auto.
    + left. rewrite aget_aset_other; auto.
  - right; right. rewrite P in H. injection H as _ <-. rewrite aget_aset_same. auto.
Qed.

(** ** Every no has a request of its own *)
Definition nset (fs : list (nat * efile)) : nat := length (filter (fun kf => ef_set (snd kf)) fs).
Definition b2n (b : bool) : nat := if b then 1 else 0.
Lemma nset_cons k f fs : nset ((k, f) :: fs) = b2n (ef_set f) + nset fs.
Proof. unfold nset. cbn. destruct (ef_set f); reflexivity. Qed.
Lemma nset_old fs id f g : aget id fs = Some g -> nset (aset id f fs) + b2n (ef_set g) = nset fs + b2n (ef_set f).
Proof.
  induction fs as [|[k h] fs IH]; cbn [aget aset]; [discriminate|].
  destruct (eqb id k).
  - intro H; injection H as <-. rewrite !nset_cons. lia.
  - intro H. specialize (IH H). rewrite !nset_cons. lia.
Qed.
Lemma nset_new fs id f : aget id fs = None -> nset (aset id f fs) = nset fs + b2n (ef_set f).
Proof.
  induction fs as [|[k h] fs IH]; cbn [aget aset]; [rewrite nset_cons; lia|].
  destruct (eqb id k); [discriminate|]. intro H. rewrite !nset_cons, IH; auto. lia.
Qed.
Definition asked_inv (ops : list shop) (s : sevt) (n : nat) : Prop :=
  exists D, NoDup D /\ incl D (asks ops) /\ (forall r, In r D -> aget r (se_reqs s) <> None) /\
    n + nset (es_files (se_sys s)) <= length D.
Lemma asks_app a b : asks (a ++ b) = asks a ++ asks b.
Proof. apply flat_map_app. Qed.
Lemma noes_app a b : noes (a ++ b) = noes a + noes b.
Proof. unfold noes. rewrite filter_app, app_length. reflexivity. Qed.
Lemma mic_asked ops op s s' a n : wf s -> mic op s s' a -> asked_inv ops s n ->
  asked_inv (ops ++ [op]) s' (n + match a with Some false => 1 | _ => 0 end).
Proof.
  intros W M (D & ND & I & Q & B).
  assert (Keep : (forall r, aget r (se_reqs s) <> None -> aget r (se_reqs s') <> None) ->
    n + match a with Some false => 1 | _ => 0 end + nset (es_files (se_sys s')) <= n + nset (es_files (se_sys s)) ->
    asked_inv (ops ++ [op]) s' (n + match a with Some false => 1 | _ => 0 end)).
  { intros K L. exists D. repeat split; auto; [|lia].
    intros r H. rewrite asks_app. apply in_or_app. left. auto. }
  assert (KS : forall r b, forall x, aget x (se_reqs s) <> None -> aget x (aset r b (se_reqs s)) <> None).
  { intros r b x H. rewrite aget_aset. destruct (eqb x r); [discriminate|exact H]. }
  destruct M; cbn [se_reqs se_sys] in *; try (apply Keep; [first [apply KS|auto]|unfold set_ephase; cbn [es_files]; lia]; fail).
  - apply Keep; auto. destruct H0; unfold set_ephase, set_efile; cbn [es_files]; try lia.
    + rewrite nset_new; [cbn [b2n ef_set]; lia|]. apply (wf_nofile _ W). cbn. lia.
    + pose proof (nset_old _ id (EFile true (ef_set f)) f H1) as X. cbn [ef_set b2n] in X. lia.
    + pose proof (nset_old _ id (EFile (ef_sized f) false) f H1) as X. cbn [ef_set b2n] in X. lia.
  - exists (D ++ [r]). repeat split.
    + apply nodup_snoc; auto. intro X. apply (Q r X), H.
    + intros x X. rewrite asks_app. apply in_or_app. apply in_app_or in X as [X|X]; [left; auto|right; exact X].
    + intros x X. cbn. rewrite aget_aset. destruct (eqb x r) eqn:E; [discriminate|]. apply in_app_or in X as [X|[X|[]]]; auto.
      subst x. apply eqb_false in E. contradiction.
    + unfold set_efile. cbn [se_sys es_files]. pose proof (nset_old _ id (EFile true true) f H1) as X. cbn [ef_set b2n] in X.
      rewrite app_length. cbn [length]. lia.
  - apply Keep; auto. pose proof (nset_old _ id (EFile true false) f H0) as X. rewrite H2 in X. unfold set_efile. cbn [es_files ef_set b2n] in *. lia.
Qed.
Lemma run_snoc ops op s s2 l : se_run (ops ++ [op]) s = Some (s2, l) ->
  exists s1 l1 a, se_run ops s = Some (s1, l1) /\ mic op s1 s2 a /\ l = l1 ++ match a with Some b => [b] | None => [] end.
Proof.
  intro H. apply run_app in H as (s1 & l1 & l2 & R1 & R2 & ->).
  apply run_cons in R2 as (s3 & a & l3 & M & _ & R & ->). cbn in R. injection R as <- <-. exists s1, l1, a. auto.
Qed.
Lemma asked_run ops : forall s l, se_run ops sevt_init = Some (s, l) -> wf s /\ asked_inv ops s (noes l).
Proof.
  induction ops as [|op ops IH] using rev_ind; intros s l H.
  - injection H as <- <-. split; [apply wf_init|]. exists []. repeat split; cbn; auto; [constructor|intros x []].
  - apply run_snoc in H as (s1 & l1 & a & R & M & ->). destruct (IH _ _ R) as [W A].
    split; [eapply mic_wf; eassumption|]. rewrite noes_app.
    replace (noes (match a with Some b => [b] | None => [] end)) with (match a with Some false => 1 | _ => 0 end)
      by (destruct a as [[|]|]; reflexivity).
    eapply mic_asked; eassumption.
Qed.
Lemma reason_lemma ops s l : se_run ops sevt_init = Some (s, l) -> noes l <= length (nodup Nat.eq_dec (asks ops)).
Proof.
  intro H. apply asked_run in H as [_ (D & ND & I & _ & B)].
  transitivity (length D); [lia|]. apply NoDup_incl_length; auto. intros x X. apply nodup_In, I, X.
Qed.

(** ** A request that gets the file of the process is heard *)
Definition heard_inv (r : nat) (s : sevt) (set : bool) : Prop :=
  exists id, has_opened s id /\
    if set then aget id (es_files (se_sys s)) = Some (EFile true true) /\ aget r (se_reqs s) <> None
    else ephase_of (se_sys s) (S r) = EOpened true id false /\ aget r (se_reqs s) = None.
Lemma mic_reqs op s s' a r : mic op s s' a -> op <> SAsk r -> op <> SGone r -> aget r (se_reqs s') = aget r (se_reqs s).
Proof.
  intros M N1 N2. destruct M; cbn in *; auto; rewrite aget_aset_other; auto; intro; subst; congruence.
Qed.
Lemma mic_phase op s s' a r : mic op s s' a -> op <> SAsk r -> op <> SGone r ->
  ephase_of (se_sys s') (S r) = ephase_of (se_sys s) (S r).
Proof.
  intros M N1 N2.
  assert (X : forall n fs l c p, c <> S r -> ephase_of (ESys n fs l (aset c p (es_cls (se_sys s)))) (S r) = ephase_of (se_sys s) (S r)).
  { intros n fs l c p N. rewrite ephase_aset, ephase_any. destruct (Nat.eqb_spec (S r) c); [congruence|reflexivity]. }
  destruct M; cbn [se_sys] in *; auto; try (apply X; congruence).
  assert (A : actor op <> S r) by (destruct op; cbn; congruence).
  destruct H0; auto; apply X; exact A.
Qed.
Lemma reqs_stay op s s' a r : mic op s s' a -> aget r (se_reqs s) <> None -> aget r (se_reqs s') <> None.
Proof. intros M N. destruct M; cbn in *; auto; rewrite aget_aset; destruct (eqb r r0); auto; discriminate. Qed.
Lemma heard_step op s s' a r b : wf s -> mic op s s' a -> heard_inv r s b -> op <> SDie -> op <> SGone r -> a <> Some false ->
  heard_inv r s' (b || match op with SAsk x => Nat.eqb x r | _ => false end).
Proof.
  intros W M (id & O & H) N1 N2 N3. pose proof (keep_opened _ _ _ _ _ W M N1 O) as O'. pose proof (keep_file _ _ _ _ _ W M O) as F.
  exists id. split; [exact O'|]. destruct b; cbn [orb].
  - destruct H as [H Q]. split; [|eapply reqs_stay; eassumption].
    destruct F as [F|[(x & _ & _ & _ & F)|(_ & F & _)]]; congruence.
  - destruct H as [H Q].
    assert (Other : op <> SAsk r -> ephase_of (se_sys s') (S r) = EOpened true id false /\ aget r (se_reqs s') = None).
    { intro N. rewrite (mic_phase _ _ _ _ _ M N N2), (mic_reqs _ _ _ _ _ M N N2). auto. }
    destruct op as [|x| |x]; try (apply Other; discriminate).
    destruct (Nat.eqb_spec x r) as [->|Nx]; [|apply Other; congruence].
    pose proof (opened_next _ _ W O) as L.
    inversion M; subst; cbn [se_sys se_reqs] in *; try congruence.
    + exfalso. destruct H0 as [X|X]; inversion X; subst. congruence.
    + exfalso. match goal with X : opening _ _ _ |- _ => inversion X end; cbn [actor] in *; congruence.
    + rewrite H in H2. injection H2 as <- <-. cbn. rewrite !aget_aset_same. split; [reflexivity|discriminate].
    + exfalso. destruct H2 as [(ow & X)|(ow & j & w & X & Y)]; [congruence|].
      rewrite H in X. injection X as <- <- <-. destruct Y as [Y|Y]; [discriminate|]. exact (wf_file _ W _ L Y).
Qed.
Lemma heard_run r ops : forall s s' l b, wf s -> se_run ops s = Some (s', l) -> heard_inv r s b ->
  ~ In SDie ops -> ~ In (SGone r) ops -> ~ In false l -> heard_inv r s' (b || existsb (fun o => match o with SAsk x => Nat.eqb x r | _ => false end) ops).
Proof.
  induction ops as [|op ops IH]; intros s s' l b W R H N1 N2 N3.
  - injection R as <- <-. cbn. rewrite orb_false_r. exact H.
  - apply run_cons in R as (s1 & a & l1 & M & _ & R & ->).
    cbn [existsb]. rewrite orb_assoc. eapply IH; [eapply mic_wf; eassumption|exact R| | | |].
    + eapply heard_step; try eassumption; intro X; subst.
      * apply N1; left; reflexivity.
      * apply N2; left; reflexivity.
      * apply N3; left; reflexivity.
    + intro X; apply N1; right; exact X.
    + intro X; apply N2; right; exact X.
    + intro X; apply N3. destruct a; [right|]; exact X.
Qed.
Lemma heard_lemma ops1 s1 l1 r ops2 s2 l2 :
  se_run ops1 sevt_init = Some (s1, l1) -> is_listening s1 -> not_begun s1 r ->
  se_run (SAsk r :: ops2) s1 = Some (s2, l2) -> In (SAsk r) ops2 -> ~ In SDie ops2 -> ~ In (SGone r) ops2 -> ~ In false l2 ->
  exists s3, se_step SOk s2 = Some (s3, Some false).
Proof.
  intros R1 (id & O & Lk) [Q U] R2 I N1 N2 N3. pose proof (run_wf _ _ _ _ wf_init R1) as W.
  assert (U' : ephase_of (se_sys s1) (S r) = EAbsent).
  { unfold under_way in U. destruct (ephase_of (se_sys s1) (S r)); [reflexivity|exfalso; apply U; discriminate..]. }
  cbn in R2. rewrite Q in R2. unfold open_then in R2. rewrite U' in R2. cbn [e_step] in R2. rewrite U', Lk in R2.
  match type of R2 with context [se_run ops2 ?x] => set (s1' := x) in R2 end.
  destruct (se_run ops2 s1') as [[s3 l3]|] eqn:R3; [|discriminate]. injection R2 as -> ->.
  assert (M : mic (SAsk r) s1 s1' None).
  { apply step_mic. cbn. rewrite Q. unfold open_then. rewrite U'. cbn [e_step]. rewrite U', Lk. reflexivity. }
  assert (H : heard_inv r s2 (false || existsb (fun o => match o with SAsk x => Nat.eqb x r | _ => false end) ops2)).
  { apply (heard_run r ops2 s1' s2 l2 false); auto; [eapply mic_wf; eassumption|].
    exists id. split; [eapply keep_opened; try eassumption; discriminate|]. split; [|exact Q].
    unfold s1'. cbn [se_sys]. rewrite ephase_set, Nat.eqb_refl. reflexivity. }
  replace (existsb _ ops2) with true in H by (symmetry; apply existsb_exists; exists (SAsk r); split; [exact I|apply Nat.eqb_refl]).
  destruct H as (j & [P _] & F & _). cbn. unfold open_then. rewrite P. cbn [e_step]. rewrite P, F. cbn. eauto.
Qed.

(** ** A process whose event cannot be opened any more *)
Definition nobody_holds (s : sevt) (id : nat) : Prop := forall r ow w, ephase_of (se_sys s) (S r) <> EOpened ow id w.
Definition cut_off (s : sevt) (id : nat) : Prop :=
  has_opened s id /\ es_link (se_sys s) <> Some id /\ nobody_holds s id.
Lemma cut_off_step op s s' a id : wf s -> mic op s s' a -> op <> SDie -> cut_off s id -> cut_off s' id /\
  ((aget id (es_files (se_sys s')) = aget id (es_files (se_sys s)) /\ (a = None \/ exists f, a = Some (negb (ef_set f)) /\ aget id (es_files (se_sys s)) = Some f)) \/
   (a = Some false /\ aget id (es_files (se_sys s')) = Some (EFile true false))).
Proof.
  intros W M N (O & L & B). pose proof (opened_next _ _ W O) as X. split.
  - split; [eapply keep_opened; eassumption|]. split; [eapply keep_unlinked; eassumption|].
    intros r ow w.
    assert (K : forall n fs l c p, (forall ow w, p <> EOpened ow id w) ->
                ephase_of (ESys n fs l (aset c p (es_cls (se_sys s)))) (S r) <> EOpened ow id w).
    { intros n fs l c p Hp. rewrite ephase_aset, ephase_any. destruct (Nat.eqb (S r) c); [apply Hp|apply B]. }
    pose proof (B r ow w) as Br. destruct O as [P C].
    destruct M; cbn [se_sys] in *; auto; try (apply K; discriminate).
    destruct H0; auto; try (apply K; discriminate).
    + apply K. intros ? ? Y. injection Y as _ Y _. congruence.
    + apply K. intros ? ? Y. injection Y as _ Y _. subst id0. eapply C; eassumption.
  - pose proof (keep_file _ _ _ _ _ W M O) as F. destruct F as [F|[(r & _ & _ & F & _)|(_ & Ea & F)]].
    + left. split; [exact F|]. destruct O as [P C].
      destruct M; auto; cbn [se_sys] in *.
      * congruence.
      * right. exists f. rewrite H2. split; [reflexivity|congruence].
      * right. exists f. rewrite H2. split; [reflexivity|congruence].
    + exfalso. exact (B _ _ _ F).
    + right. auto.
Qed.
Lemma cut_off_run ops : forall s s' l id, wf s -> se_run ops s = Some (s', l) -> cut_off s id -> ~ In SDie ops ->
  (aget id (es_files (se_sys s)) = Some (EFile true false) -> ~ In false l) /\ ~ In false (tl l).
Proof.
  induction ops as [|op ops IH]; intros s s' l id W R C N.
  - injection R as <- <-. cbn. auto.
  - apply run_cons in R as (s1 & a & l1 & M & _ & R & ->).
    assert (N1 : op <> SDie) by (intros ->; apply N; left; reflexivity).
    assert (N2 : ~ In SDie ops) by (intro; apply N; right; assumption).
    destruct (cut_off_step _ _ _ _ _ W M N1 C) as [C1 F].
    destruct (IH _ _ _ _ (mic_wf _ _ _ _ M W) R C1 N2) as [I1 I2].
    destruct F as [[F [Ea|(f & Ea & Ef)]]|[Ea F]]; subst a; cbn [tl In].
    + rewrite F in I1. auto.
    + destruct (ef_set f) eqn:St; cbn [negb].
      * (* answering no clears the flag *)
        exfalso. inversion M; subst; cbn [se_sys] in *.
        destruct C as ([P _] & _). cbn [se_sys] in P. rewrite H in P. injection P as -> ->. cbn [set_efile es_files] in F. rewrite aget_aset_same in F.
        rewrite <- F in Ef. injection Ef as <-. discriminate.
      * assert (Sz : aget id (es_files (se_sys s)) = Some (EFile true false)).
        { destruct C as ([P _] & _). inversion M; subst; cbn [se_sys] in *; rewrite P in *; try discriminate.
          injection H as <- <-. destruct f0; cbn in *; congruence. }
        rewrite F in I1. split; [intros _ [Y|Y]; [discriminate|exact (I1 Sz Y)]|exact (I1 Sz)].
    + specialize (I1 F). split; [|exact I1]. intros Y [Z|Z]; [|exact (I1 Z)].
      inversion M; subst; cbn [se_sys] in *. destruct C as ([P _] & _). cbn [se_sys] in P. rewrite H in P. injection P as -> ->. rewrite H0 in Y. injection Y as ->. discriminate.
Qed.

(** Once a request made after the process opened its event is over, the process is cut off. *)
Definition cutting (r : nat) (s : sevt) (id : nat) : Prop :=
  es_link (se_sys s) <> Some id \/
  (ephase_of (se_sys s) (S r) = EAbsent /\ aget r (se_reqs s) = None) \/
  (ephase_of (se_sys s) (S r) = EOpened true id false /\ aget r (se_reqs s) <> Some true).
Lemma cutting_step op s s' a r id : wf s -> mic op s s' a -> op <> SDie -> op <> SGone r -> has_opened s id ->
  cutting r s id -> cutting r s' id.
Proof.
  intros W M N1 N2 O [C|C].
  - left. eapply keep_unlinked; try eassumption. eapply opened_next; eassumption.
  - assert (D : op = SAsk r \/ op <> SAsk r).
    { destruct op as [|x| |x]; try (right; discriminate). destruct (Nat.eq_dec x r) as [->|Nx]; [left; reflexivity|right; congruence]. }
    destruct D as [->|N3].
    2:{ right. rewrite (mic_phase _ _ _ _ _ M N3 N2), (mic_reqs _ _ _ _ _ M N3 N2). exact C. }
    inversion M; subst; cbn [se_sys se_reqs] in *.
    + exfalso. destruct H as [X|X]; inversion X; subst. destruct C as [[_ C]|[_ C]]; congruence.
    + match goal with X : opening _ _ _ |- _ => inversion X; subst; cbn [actor] in * end;
        try (exfalso; destruct C as [[C _]|[C _]]; congruence).
      * destruct (Nat.eq_dec id0 id) as [->|Ni].
        -- right; right. unfold cutting; cbn [se_sys se_reqs]. rewrite ephase_set, Nat.eqb_refl. split; [reflexivity|].
           destruct C as [[_ C]|[C _]]; congruence.
        -- left. cbn. congruence.
      * left. cbn. congruence.
    + right; right. unfold cutting; cbn [se_sys se_reqs]. rewrite aget_aset_same. destruct C as [[C _]|[C _]]; [congruence|].
      split; [exact C|discriminate].
    + destruct C as [[C _]|[C _]].
      * exfalso. destruct H1 as [(? & X)|(? & ? & ? & X & _)]; congruence.
      * right; right. unfold cutting; cbn [se_sys se_reqs]. rewrite aget_aset_same. split; [exact C|discriminate].
    + left. cbn. destruct C as [[C _]|[C _]]; [congruence|]. rewrite C in H1. injection H1 as <- <-. discriminate.
    + exfalso. destruct C as [[C _]|[C _]]; congruence.
    + exfalso. destruct C as [[C C']|[C _]]; congruence.
Qed.
Lemma cutting_run r ops : forall s s' l id, wf s -> se_run ops s = Some (s', l) -> ~ In SDie ops -> ~ In (SGone r) ops ->
  has_opened s id -> cutting r s id -> has_opened s' id /\ cutting r s' id.
Proof.
  induction ops as [|op ops IH]; intros s s' l id W R N1 N2 O C.
  - injection R as <- <-. auto.
  - apply run_cons in R as (s1 & a & l1 & M & _ & R & _).
    assert (A1 : op <> SDie) by (intros ->; apply N1; left; reflexivity).
    assert (A2 : op <> SGone r) by (intros ->; apply N2; left; reflexivity).
    eapply IH; [eapply mic_wf; eassumption|exact R| | | |].
    + intro; apply N1; right; assumption.
    + intro; apply N2; right; assumption.
    + eapply keep_opened; eassumption.
    + eapply cutting_step; eassumption.
Qed.
Lemma absent s r : ~ under_way s r -> ephase_of (se_sys s) (S r) = EAbsent.
Proof. unfold under_way. destruct (ephase_of (se_sys s) (S r)); [reflexivity|intro H; exfalso; apply H; discriminate..]. Qed.
Lemma once_lemma ops1 s1 l1 id r ops2 s2 l2 ops3 s3 l3 :
  se_run ops1 sevt_init = Some (s1, l1) -> has_opened s1 id -> not_begun s1 r ->
  se_run ops2 s1 = Some (s2, l2) -> ~ In SDie ops2 -> ~ In (SGone r) ops2 -> finished s2 r -> (forall x, ~ under_way s2 x) ->
  se_run ops3 s2 = Some (s3, l3) -> ~ In SDie ops3 ->
  ~ In false (tl l3).
Proof.
  intros R1 O [Q U] R2 N1 N2 F B R3 N3. pose proof (run_wf _ _ _ _ wf_init R1) as W1. pose proof (run_wf _ _ _ _ W1 R2) as W2.
  assert (C : cutting r s1 id) by (right; left; split; [apply absent, U|exact Q]).
  destruct (cutting_run _ _ _ _ _ _ W1 R2 N1 N2 O C) as [O2 C2].
  eapply cut_off_run; [exact W2|exact R3| |exact N3].
  split; [exact O2|]. split.
  - destruct C2 as [C2|[[_ C2]|[_ C2]]]; [exact C2|unfold finished in F; congruence|contradiction].
  - intros x ow w. rewrite (absent _ _ (B x)). discriminate.
Qed.

(** ** The other ways to lose a request *)
Lemma null_run ops : forall s s' l ow, se_run ops s = Some (s', l) -> ephase_of (se_sys s) 0 = ENull ow -> ~ In SDie ops -> ~ In false l.
Proof.
  induction ops as [|op ops IH]; intros s s' l ow R P N.
  - injection R as <- <-. auto.
  - apply run_cons in R as (s1 & a & l1 & M & _ & R & ->).
    assert (P1 : ephase_of (se_sys s1) 0 = ENull ow).
    { assert (X : forall n fs l c p, c <> 0 -> ephase_of (ESys n fs l (aset c p (es_cls (se_sys s)))) 0 = ephase_of (se_sys s) 0).
      { intros n fs k c p Nc. rewrite ephase_aset, ephase_any. destruct (Nat.eqb_spec 0 c); [congruence|reflexivity]. }
      destruct M; cbn [se_sys] in *; auto; try (etransitivity; [apply X; discriminate|exact P]).
      - exfalso; apply N; left; reflexivity.
      - assert (A : actor op <> 0 \/ actor op = 0) by (destruct (actor op); auto).
        destruct A as [A|A].
        + destruct H0; auto; (etransitivity; [apply X; exact A|exact P]).
        + rewrite A in H0. inversion H0; congruence. }
    assert (NF : ~ In false l1).
    { eapply IH; [exact R|exact P1|]. intro; apply N; right; assumption. }
    destruct a as [[|]|]; auto; cbn [In].
    + intros [X|X]; [discriminate|auto].
    + inversion M; subst; cbn [se_sys] in *. congruence.
Qed.

(** ** Whole calls *)
Lemma ev_opening c e e' last : opening c e e' -> (forall ow id b, ephase_of e c = ECreating ow id b -> aget id (es_files e) <> None) ->
  e_step (open_then e c last) e = Some (e', VDone) /\ (forall x, open_then e c last <> VSet x).
Proof.
  intros O NF. unfold open_then. destruct O as [id P L|P L|ow id P L|ow P L|ow id f P F|ow id f P F|ow id b P F];
    [..|exfalso; eapply NF; eassumption]; rewrite P; cbn [e_step]; rewrite P; rewrite ?L, ?F; (split; [reflexivity|discriminate]).
Qed.
Lemma ask_opening r e e' q : aget r q = None -> opening (S r) e e' ->
  (forall ow id b, ephase_of e (S r) = ECreating ow id b -> aget id (es_files e) <> None) ->
  se_step (SAsk r) (SEvt e q) = Some (SEvt e' q, None).
Proof.
  intros Q O NF. cbn [se_step se_reqs se_sys]. rewrite Q. destruct (ev_opening _ _ _ (VSet (S r)) O NF) as [-> X].
  destruct (open_then e (S r) (VSet (S r))); try reflexivity. exfalso; eapply X; reflexivity.
Qed.
Lemma ok_opening e e' q : opening 0 e e' ->
  (forall ow id b, ephase_of e 0 = ECreating ow id b -> aget id (es_files e) <> None) ->
  se_step SOk (SEvt e q) = Some (SEvt e' q, None).
Proof.
  intros O NF. cbn [se_step se_reqs se_sys]. destruct (ev_opening _ _ _ (VWait 0 true) O NF) as [-> X]. reflexivity.
Qed.
Lemma ask_opened r e q id f : aget r q = None -> ephase_of e (S r) = EOpened true id false -> aget id (es_files e) = Some f ->
  ef_sized f = true ->
  se_step (SAsk r) (SEvt e q) = Some (SEvt (set_efile e id (EFile true true)) (aset r false q), None).
Proof.
  intros Q P F Z. cbn [se_step se_reqs se_sys]. rewrite Q. unfold open_then. rewrite P. cbn [e_step]. rewrite P, F, Z. reflexivity.
Qed.
Lemma ask_closing r e q id : aget r q = Some false -> ephase_of e (S r) = EOpened true id false ->
  se_step (SAsk r) (SEvt e q) =
  Some (SEvt (ESys (es_next e) (es_files e) None (aset (S r) EAbsent (es_cls e))) (aset r true q), None).
Proof. intros Q P. cbn [se_step se_reqs se_sys]. rewrite Q. cbn [e_step]. rewrite P. reflexivity. Qed.

(** The four steps of creating the event, in a state without a link. *)
Definition created (e : esys) (c : nat) : esys :=
  ESys (S (es_next e))
    (aset (es_next e) (EFile true false) (aset (es_next e) (EFile true false) (aset (es_next e) (EFile false false) (es_files e))))
    (Some (es_next e))
    (aset c (EOpened true (es_next e) false) (aset c (ECreating true (es_next e) true) (aset c (ECreating true (es_next e) false)
      (aset c (EMissing true) (es_cls e))))).
Definition e1c (e : esys) c := set_ephase e c (EMissing true).
Definition e2c (e : esys) c := ESys (S (es_next e)) (aset (es_next e) (EFile false false) (es_files e)) (Some (es_next e))
   (aset c (ECreating true (es_next e) false) (es_cls (e1c e c))).
Definition e3c (e : esys) c := set_ephase (set_efile (e2c e c) (es_next e) (EFile true false)) c (ECreating true (es_next e) true).
Lemma creating_steps e c : ephase_of e c = EAbsent -> es_link e = None ->
  opening c e (e1c e c) /\ opening c (e1c e c) (e2c e c) /\ opening c (e2c e c) (e3c e c) /\ opening c (e3c e c) (created e c) /\
  (forall ow id b, ephase_of (e2c e c) c = ECreating ow id b -> aget id (es_files (e2c e c)) <> None) /\
  (forall ow id b, ephase_of (e3c e c) c = ECreating ow id b -> aget id (es_files (e3c e c)) <> None).
Proof.
  intros P L.
  assert (P1 : ephase_of (e1c e c) c = EMissing true) by (unfold e1c; rewrite ephase_set, Nat.eqb_refl; reflexivity).
  assert (P2 : ephase_of (e2c e c) c = ECreating true (es_next e) false) by (unfold e2c; rewrite ephase_aset, Nat.eqb_refl; reflexivity).
  assert (P3 : ephase_of (e3c e c) c = ECreating true (es_next e) true) by (unfold e3c; rewrite ephase_set, Nat.eqb_refl; reflexivity).
  assert (F2 : aget (es_next e) (es_files (e2c e c)) = Some (EFile false false)) by (cbn; apply aget_aset_same).
  assert (F3 : aget (es_next e) (es_files (e3c e c)) = Some (EFile true false)) by (cbn; apply aget_aset_same).
  repeat split.
  - apply op_miss; assumption.
  - exact (op_create c (e1c e c) true P1 L).
  - exact (op_trunc c (e2c e c) true (es_next e) (EFile false false) P2 F2).
  - exact (op_init c (e3c e c) true (es_next e) (EFile true false) P3 F3).
  - intros ow id b H. rewrite P2 in H. injection H as <- <- <-. congruence.
  - intros ow id b H. rewrite P3 in H. injection H as <- <- <-. congruence.
Qed.

Record hbase (s : sevt) (used : list nat) : Prop := Hb {
  hb_wf : wf s;
  hb_absent : forall r, ephase_of (se_sys s) (S r) = EAbsent;
  hb_used : forall r, aget r (se_reqs s) <> None -> In r used;
  hb_clean : forall id, es_link (se_sys s) = Some id -> aget id (es_files (se_sys s)) = Some (EFile true false) }.
Definition hrel (h : hearing) (s : sevt) (used : list nat) : Prop :=
  hbase s used /\
  match h with
  | Unheard => ephase_of (se_sys s) 0 = EAbsent
  | Listening => exists id, ephase_of (se_sys s) 0 = EOpened true id false /\ es_link (se_sys s) = Some id
  | Asked => exists id, ephase_of (se_sys s) 0 = EOpened true id false /\ es_link (se_sys s) = None /\
                aget id (es_files (se_sys s)) = Some (EFile true true)
  | Deaf => exists id, ephase_of (se_sys s) 0 = EOpened true id false /\ es_link (se_sys s) = None /\
                aget id (es_files (se_sys s)) = Some (EFile true false)
  end.

Lemma wf_step op s s' a : wf s -> se_step op s = Some (s', a) -> wf s'.
Proof. intros W H. eapply mic_wf; [apply step_mic, H|exact W]. Qed.

Lemma ask_whole r s used : hbase s used -> ~ In r used ->
  exists s', ask_call 6 r s = Some s' /\ hbase s' (r :: used) /\ es_link (se_sys s') = None /\
    ephase_of (se_sys s') 0 = ephase_of (se_sys s) 0 /\
    (forall id, es_link (se_sys s) = Some id -> aget id (es_files (se_sys s')) = Some (EFile true true)) /\
    (forall id, es_link (se_sys s) <> Some id -> id < es_next (se_sys s) -> aget id (es_files (se_sys s')) = aget id (es_files (se_sys s))).
Proof.
  intros [W A U C] N. destruct s as [e q]. cbn [se_sys se_reqs] in *.
  assert (Q : aget r q = None) by (destruct (aget r q) eqn:X; [exfalso; apply N, U; congruence|reflexivity]).
  assert (Ph : forall x n fs l cls, (forall k, x k = match k with O => ephase_of e 0 | S _ => EAbsent end) ->
     (forall k, ephase_of (ESys n fs l cls) k = x k) -> (forall k, ephase_of (ESys n fs l cls) (S k) = EAbsent) /\ ephase_of (ESys n fs l cls) 0 = ephase_of e 0).
  { intros x n fs l cls X Y. split; [intro k|]; rewrite Y, X; reflexivity. }
  destruct (es_link e) as [id|] eqn:L.
  - assert (S1 := ask_opening r e _ q Q (op_join (S r) e id (A r) L) ltac:(intros; rewrite A in *; discriminate)).
    set (e1 := set_ephase e (S r) (EOpened true id false)) in *.
    assert (P1 : ephase_of e1 (S r) = EOpened true id false) by (unfold e1; rewrite ephase_set, Nat.eqb_refl; reflexivity).
    assert (F1 : aget id (es_files e1) = Some (EFile true false)) by (apply C; reflexivity).
    assert (S2 := ask_opened r e1 q id _ Q P1 F1 eq_refl).
    set (e2 := set_efile e1 id (EFile true true)) in *.
    assert (P2 : ephase_of e2 (S r) = EOpened true id false) by exact P1.
    assert (S3 := ask_closing r e2 (aset r false q) id (aget_aset_same _ _ _) P2).
    match type of S3 with _ = Some (?x, _) => set (s3 := x) in * end.
    assert (W3 : wf s3) by (exact (wf_step _ _ _ _ (wf_step _ _ _ _ (wf_step _ _ _ _ W S1) S2) S3)).
    exists s3. split.
    + cbn [ask_call]. rewrite S1. cbn [se_reqs]. rewrite Q. change (eqb None (Some true)) with false. cbn iota.
      rewrite S2. cbn [se_reqs]. rewrite aget_aset_same. change (eqb (Some false) (Some true)) with false. cbn iota.
      rewrite S3. unfold s3 at 1. cbn [se_reqs]. rewrite aget_aset_same. reflexivity.
    + refine (conj (Hb _ _ W3 _ _ _) (conj eq_refl (conj _ (conj _ _)))).
      * intro k. unfold s3. cbn [se_sys]. rewrite ephase_aset. destruct (Nat.eqb (S k) (S r)) eqn:E; [reflexivity|].
        unfold e2, e1. cbn [es_cls set_efile set_ephase]. rewrite ephase_aset, E, ephase_any. apply A.
      * intros x X. unfold s3 in X. cbn [se_reqs] in X. rewrite !aget_aset in X. destruct (eqb x r) eqn:E; [left; symmetry; apply eqb_true, E|right; auto].
      * discriminate.
      * unfold s3, e2, e1. cbn [se_sys es_cls set_efile set_ephase]. rewrite !ephase_aset. reflexivity.
      * intros j J. injection J as <-. unfold s3, e2. cbn. apply aget_aset_same.
      * intros j J _. unfold s3, e2. cbn. apply aget_aset_other. congruence.
  - destruct (creating_steps e (S r) (A r) L) as (O1 & O2 & O3 & O4 & G2 & G3).
    assert (S1 := ask_opening r _ _ q Q O1 ltac:(intros; rewrite A in *; discriminate)).
    assert (S2 := ask_opening r _ _ q Q O2 ltac:(intros ow id b X; unfold e1c in X; rewrite ephase_set, Nat.eqb_refl in X; discriminate)).
    assert (S3 := ask_opening r _ _ q Q O3 G2). assert (S4 := ask_opening r _ _ q Q O4 G3).
    set (e4 := created e (S r)) in *.
    assert (P4 : ephase_of e4 (S r) = EOpened true (es_next e) false) by (unfold e4, created; rewrite ephase_aset, Nat.eqb_refl; reflexivity).
    assert (F4 : aget (es_next e) (es_files e4) = Some (EFile true false)) by (cbn; apply aget_aset_same).
    assert (S5 := ask_opened r e4 q _ _ Q P4 F4 eq_refl).
    set (e5 := set_efile e4 (es_next e) (EFile true true)) in *.
    assert (S6 := ask_closing r e5 (aset r false q) (es_next e) (aget_aset_same _ _ _) P4).
    match type of S6 with _ = Some (?x, _) => set (s6 := x) in * end.
    assert (W6 : wf s6).
    { exact (wf_step _ _ _ _ (wf_step _ _ _ _ (wf_step _ _ _ _ (wf_step _ _ _ _ (wf_step _ _ _ _ (wf_step _ _ _ _ W S1) S2) S3) S4) S5) S6). }
    exists s6. split.
    + cbn [ask_call].
      do 4 (first [rewrite S1|rewrite S2|rewrite S3|rewrite S4]; cbn [se_reqs]; rewrite Q; change (eqb None (Some true)) with false; cbn iota).
      rewrite S5. cbn [se_reqs]. rewrite aget_aset_same. change (eqb (Some false) (Some true)) with false. cbn iota.
      rewrite S6. unfold s6 at 1. cbn [se_reqs]. rewrite aget_aset_same. reflexivity.
    + assert (Pk : forall k, k <> S r -> ephase_of (se_sys s6) k = ephase_of e k).
      { intros k Nk. unfold s6, e5, e4, created. cbn [se_sys es_cls set_efile es_next es_files]. rewrite !ephase_aset.
        destruct (Nat.eqb_spec k (S r)); [contradiction|reflexivity]. }
      refine (conj (Hb _ _ W6 _ _ _) (conj eq_refl (conj _ (conj _ _)))).
      * intro k. destruct (Nat.eq_dec k r) as [->|Nk].
        -- unfold s6. cbn [se_sys]. rewrite ephase_aset, Nat.eqb_refl. reflexivity.
        -- rewrite Pk by congruence. apply A.
      * intros x X. unfold s6 in X. cbn [se_reqs] in X. rewrite !aget_aset in X. destruct (eqb x r) eqn:E; [left; symmetry; apply eqb_true, E|right; auto].
      * discriminate.
      * apply Pk. discriminate.
      * discriminate.
      * intros j _ J. unfold s6, e5, e4, created. cbn [se_sys es_files set_efile]. rewrite !aget_aset_other by lia. reflexivity.
Qed.
Lemma ask_rel h s used r : hrel h s used -> ~ In r used ->
  exists s', ask_call 6 r s = Some s' /\ hrel (fst (hear_step (WAsk r) h)) s' (r :: used).
Proof.
  intros [B H] N. destruct (ask_whole r s used B N) as (s' & E & B' & L' & P' & F1 & F2). exists s'. split; [exact E|].
  split; [exact B'|]. pose proof (hb_wf _ _ B) as W.
  destruct h; cbn [hear_step fst].
  - congruence.
  - destruct H as (id & P & L). exists id. rewrite P', L'. auto.
  - destruct H as (id & P & L & F). exists id. rewrite P', L'. repeat split; auto. rewrite F2; auto; [congruence|].
    pose proof (wf_phase _ W 0) as X. rewrite P in X. cbn in X. tauto.
  - destruct H as (id & P & L & F). exists id. rewrite P', L'. repeat split; auto. rewrite F2; auto; [congruence|].
    pose proof (wf_phase _ W 0) as X. rewrite P in X. cbn in X. tauto.
Qed.
Lemma look_step e q id f : ephase_of e 0 = EOpened true id false -> aget id (es_files e) = Some f -> ef_sized f = true ->
  se_step SOk (SEvt e q) = Some (SEvt (if ef_set f then set_efile e id (EFile true false) else e) q, Some (negb (ef_set f))).
Proof.
  intros P F Z. cbn [se_step se_sys se_reqs]. unfold open_then. rewrite P. cbn [e_step]. rewrite P, F, Z. cbn [negb].
  destruct (ef_set f); reflexivity.
Qed.
Lemma ok_rel h s used : hrel h s used ->
  exists s' b, ok_call 5 s = Some (s', b) /\ hrel (fst (hear_step WOk h)) s' used /\ snd (hear_step WOk h) = Some b.
Proof.
  intros [B H]. pose proof B as [W A U C]. destruct s as [e q]. cbn [se_sys se_reqs] in *. destruct h; cbn [hear_step fst snd].
  - destruct (es_link e) as [id|] eqn:L.
    + assert (S1 := ok_opening e _ q (op_join 0 e id H L) ltac:(intros; rewrite H in *; discriminate)).
      set (e1 := set_ephase e 0 (EOpened true id false)) in *.
      assert (P1 : ephase_of e1 0 = EOpened true id false) by (unfold e1; rewrite ephase_set; reflexivity).
      assert (F1 : aget id (es_files e1) = Some (EFile true false)) by (apply C; reflexivity).
      assert (S2 := look_step e1 q id _ P1 F1 eq_refl). cbn [ef_set negb] in S2.
      exists (SEvt e1 q), true. split; [cbn [ok_call]; rewrite S1, S2; reflexivity|]. split; [|reflexivity].
      split; [|exists id; auto]. split; auto.
      * exact (wf_step _ _ _ _ W S1).
      * intro k. unfold e1. cbn [se_sys]. rewrite ephase_set. cbn. apply A.
      * intros j J. apply C. cbn in J. congruence.
    + destruct (creating_steps e 0 H L) as (O1 & O2 & O3 & O4 & G2 & G3).
      assert (S1 := ok_opening _ _ q O1 ltac:(intros; rewrite H in *; discriminate)).
      assert (S2 := ok_opening _ _ q O2 ltac:(intros ow id b X; unfold e1c in X; rewrite ephase_set in X; discriminate)).
      assert (S3 := ok_opening _ _ q O3 G2). assert (S4 := ok_opening _ _ q O4 G3).
      set (e4 := created e 0) in *.
      assert (P4 : ephase_of e4 0 = EOpened true (es_next e) false) by (unfold e4, created; rewrite ephase_aset; reflexivity).
      assert (F4 : aget (es_next e) (es_files e4) = Some (EFile true false)) by (cbn; apply aget_aset_same).
      assert (S5 := look_step e4 q _ _ P4 F4 eq_refl). cbn [ef_set negb] in S5.
      exists (SEvt e4 q), true. split; [cbn [ok_call]; rewrite S1, S2, S3, S4, S5; reflexivity|]. split; [|reflexivity].
      split; [|exists (es_next e); auto]. split; auto.
      * exact (wf_step _ _ _ _ (wf_step _ _ _ _ (wf_step _ _ _ _ (wf_step _ _ _ _ W S1) S2) S3) S4).
      * intro k. unfold e4, created. cbn [se_sys]. rewrite !ephase_aset. cbn. apply A.
      * intros j J. cbn in J. injection J as <-. exact F4.
  - destruct H as (id & P & L). assert (S1 := look_step e q id _ P (C _ L) eq_refl). cbn [ef_set negb] in S1.
    exists (SEvt e q), true. split; [cbn [ok_call]; rewrite S1; reflexivity|]. split; [|reflexivity]. split; [exact B|exists id; auto].
  - destruct H as (id & P & L & F). assert (S1 := look_step e q id _ P F eq_refl). cbn [ef_set negb] in S1.
    eexists _, false. split; [cbn [ok_call]; rewrite S1; reflexivity|]. split; [|reflexivity]. split.
    + split; auto.
      * exact (wf_step _ _ _ _ W S1).
      * intros j J. cbn in J. congruence.
    + exists id. cbn. rewrite aget_aset_same. auto.
  - destruct H as (id & P & L & F). assert (S1 := look_step e q id _ P F eq_refl). cbn [ef_set negb] in S1.
    exists (SEvt e q), true. split; [cbn [ok_call]; rewrite S1; reflexivity|]. split; [|reflexivity]. split; [exact B|exists id; auto].
Qed.
Lemma die_rel h s used : hrel h s used -> exists s', se_step SDie s = Some (s', None) /\ hrel Unheard s' used.
Proof.
  intros [[W A U C] _]. eexists. split; [reflexivity|]. split; [split; auto|].
  - exact (wf_step SDie s _ None W eq_refl).
  - intro r. cbn [se_sys]. rewrite ephase_set. apply A.
  - cbn [se_sys]. rewrite ephase_set. reflexivity.
Qed.
Lemma whole_run cs : forall h s used, hrel h s used -> NoDup (call_reqs cs) -> (forall r, In r (call_reqs cs) -> ~ In r used) ->
  exists s' used', sw_run cs s = Some (s', snd (hear_run cs h)) /\ hrel (fst (hear_run cs h)) s' used' /\
    (forall r, In r used' -> In r used \/ In r (call_reqs cs)).
Proof.
  induction cs as [|c cs IH]; intros h s used R ND N.
  - exists s, used. cbn. auto.
  - destruct c as [|r|].
    + destruct (ok_rel _ _ _ R) as (s1 & b & E & R1 & A). cbn [sw_run sw_step hear_run]. rewrite E.
      destruct (hear_step WOk h) as [h1 a]. cbn [fst snd] in *. subst a.
      destruct (IH _ _ _ R1 ND N) as (s2 & u2 & E2 & R2 & U2). rewrite E2. exists s2, u2.
      destruct (hear_run cs h1) as [h2 l2]. cbn [fst snd] in *. auto.
    + cbn [call_reqs flat_map app] in ND, N. inversion ND as [|x y Nr ND']; subst.
      destruct (ask_rel _ _ _ r R (N r (or_introl eq_refl))) as (s1 & E & R1). cbn [sw_run sw_step hear_run]. rewrite E.
      assert (X : snd (hear_step (WAsk r) h) = None) by (destruct h; reflexivity).
      destruct (hear_step (WAsk r) h) as [h1 a]. cbn [fst snd] in *. subst a.
      destruct (IH _ _ (r :: used) R1 ND') as (s2 & u2 & E2 & R2 & U2).
      { intros x X [Y|Y]; [subst x; exact (Nr X)|exact (N x (or_intror X) Y)]. }
      rewrite E2. exists s2, u2. destruct (hear_run cs h1) as [h2 l2]. cbn [fst snd] in *. split; [reflexivity|]. split; [exact R2|].
      intros x X. destruct (U2 x X) as [[Y|Y]|Y]; [right; left; auto|left; auto|right; right; exact Y].
    + destruct (die_rel _ _ _ R) as (s1 & E & R1). cbn [sw_run sw_step hear_run]. rewrite E.
      replace (hear_step WDie h) with (Unheard, @None bool) by (destruct h; reflexivity).
      destruct (IH _ _ _ R1 ND N) as (s2 & u2 & E2 & R2 & U2). rewrite E2. exists s2, u2.
      destruct (hear_run cs Unheard) as [h2 l2]. cbn [fst snd] in *. auto.
Qed.
Lemma hrel_init : hrel Unheard sevt_init [].
Proof. split; [split|]; auto; try apply wf_init; cbn; try congruence; discriminate. Qed.
Lemma whole_lemma cs : NoDup (call_reqs cs) -> exists s, sw_run cs sevt_init = Some (s, snd (hear_run cs Unheard)).
Proof. intro N. destruct (whole_run cs _ _ _ hrel_init N) as (s & u & E & _); [auto|]. eauto. Qed.

(** ** All processes of a host *)
Lemma event_inj p q : a_pid p -> a_pid q -> shutdown_event p = shutdown_event q -> p = q.
Proof. intros A B E. unfold shutdown_event in E. apply app_inv_head, app_inv_head in E. apply pid_inj; assumption. Qed.
Lemma evt_aset s n e m : evt_of (aset n e s) m = if eqb m n then e else evt_of s m.
Proof. unfold evt_of. rewrite aget_aset. destruct (eqb m n); reflexivity. Qed.
Lemma project_lemma ops : forall s s' l pid, a_pid pid -> (forall o, In o ops -> a_pid (fst o)) -> sh_run ops s = Some (s', l) ->
  se_run (ops_of pid ops) (evt_of s (shutdown_event pid)) = Some (evt_of s' (shutdown_event pid), answers_of pid l).
Proof.
  induction ops as [|[p op] ops IH]; intros s s' l pid A Ap R.
  - injection R as <- <-. reflexivity.
  - cbn [sh_run] in R. unfold sh_step in R. destruct (se_step op (evt_of s (shutdown_event p))) as [[e a]|] eqn:E; [|discriminate].
    destruct (sh_run ops (aset (shutdown_event p) e s)) as [[s2 l2]|] eqn:R2; [|discriminate]. injection R as <- <-.
    apply (IH _ _ _ pid A) in R2; [|intros o O; apply Ap; right; exact O].
    rewrite evt_aset in R2. unfold ops_of, answers_of in *. cbn [filter fst].
    assert (Pp : a_pid p) by (apply (Ap (p, op)); left; reflexivity).
    destruct (Z.eqb_spec p pid) as [->|N].
    + rewrite eqb_refl in R2. cbn [map snd se_run]. rewrite E, R2. destruct a; [|reflexivity]. cbn [filter fst]. rewrite Z.eqb_refl. reflexivity.
    + assert (X : eqb (shutdown_event pid) (shutdown_event p) = false) by (apply neq_eqb; intro X; apply N; symmetry; apply event_inj; assumption).
      rewrite X in R2. rewrite R2. destruct a; [|reflexivity]. cbn [filter fst]. destruct (Z.eqb_spec p pid); [contradiction|reflexivity].
Qed.

(** ** Whom the calls address *)
Lemma ask_name_in host name l pid : In pid (ask_name host name l) <-> exists p, In p l /\ mp_pid p = pid /\ mp_pname p = name /\ mp_host p = host.
Proof.
  unfold ask_name. rewrite in_map_iff. split.
  - intros (p & E & H). apply filter_In in H as [I H]. apply andb_true_iff in H as [H1 H2]. apply eqb_true in H1, H2. exists p; auto.
  - intros (p & I & E & H1 & H2). exists p. split; [exact E|]. apply filter_In. split; [exact I|]. rewrite H1, H2, !eqb_refl. reflexivity.
Qed.
Lemma split_lemma host l : Permutation (ask_users host l ++ ask_core host l) (map mp_pid (filter (fun p => eqb (mp_host p) host) l)).
Proof.
  unfold ask_users, ask_core. induction l as [|p l IH]; [constructor|]. cbn [filter].
  destruct (eqb (mp_host p) host); rewrite ?andb_true_r, ?andb_false_r; [|exact IH].
  destruct (is_core_unit (mp_uname p)); cbn [negb map app].
  - symmetry. apply Permutation_cons_app. symmetry. exact IH.
  - constructor. exact IH.
Qed.

(** ** One call addressing many processes *)
Lemma hears_rel s pid below h : hears s pid below h -> exists used, hrel h (evt_of s (shutdown_event pid)) used /\ (forall r, In r used -> r < below).
Proof.
  intros (cs & l & E & ND & B & F). destruct (whole_run cs _ _ _ hrel_init ND) as (s' & u & E' & R & U); [auto|].
  rewrite E in E'. injection E' as -> _. exists u. subst h. split; [exact R|]. intros r H. destruct (U r H) as [[]|]; auto.
Qed.
Definition asked_h (h : hearing) : hearing := fst (hear_step (WAsk 0) h).
Lemma ask_all_run pids : forall r s (h : Z -> hearing),
  (forall p, a_pid p -> exists used, hrel (h p) (evt_of s (shutdown_event p)) used /\ (forall x, In x used -> x < r)) ->
  (forall p, In p pids -> a_pid p) ->
  exists s', ask_all r pids s = Some s' /\
    forall p, a_pid p ->
      (In p pids -> exists used, hrel (asked_h (h p)) (evt_of s' (shutdown_event p)) used) /\
      (~ In p pids -> evt_of s' (shutdown_event p) = evt_of s (shutdown_event p)).
Proof.
  induction pids as [|p0 pids IH]; intros r s h H A.
  - exists s. split; [reflexivity|]. intros p Ap. split; [intros []|auto].
  - assert (A0 : a_pid p0) by (apply A; left; reflexivity).
    destruct (H p0 A0) as (u & R & U).
    destruct (ask_rel _ _ _ r R) as (e1 & E & R1); [intro X; specialize (U r X); lia|].
    cbn [ask_all]. rewrite E.
    destruct (IH (S r) (aset (shutdown_event p0) e1 s) (fun p => if Z.eqb p p0 then asked_h (h p0) else h p)) as (s' & E' & P).
    + intros p Ap. rewrite evt_aset. destruct (Z.eqb_spec p p0) as [->|N].
      * rewrite eqb_refl. exists (r :: u). split.
        -- unfold asked_h. destruct (h p0); exact R1.
        -- intros x [X|X]; [lia|specialize (U x X); lia].
      * rewrite neq_eqb by (intro X; apply N, event_inj; assumption). destruct (H p Ap) as (v & Rv & V). exists v. split; [exact Rv|].
        intros x X. specialize (V x X). lia.
    + intros p I. apply A. right. exact I.
    + exists s'. split; [exact E'|]. intros p Ap. destruct (P p Ap) as [P1 P2].
      destruct (Z.eqb_spec p p0) as [->|N].
      * split; [|intro X; exfalso; apply X; left; reflexivity]. intros _.
        destruct (in_dec Z.eq_dec p0 pids) as [I|I].
        -- destruct (P1 I) as (v & V). exists v. destruct (h p0); exact V.
        -- rewrite (P2 I), evt_aset, eqb_refl. exists (r :: u). unfold asked_h. destruct (h p0); exact R1.
      * split.
        -- intros [X|X]; [congruence|]. apply P1, X.
        -- intro X. rewrite P2 by (intro Y; apply X; right; exact Y). rewrite evt_aset, neq_eqb; [reflexivity|].
           intro Y. apply N, event_inj; assumption.
Qed.
Lemma ask_all_lemma pids r s (h : Z -> hearing) :
  (forall p, a_pid p -> hears s p r (h p)) -> (forall p, In p pids -> a_pid p) ->
  exists s', ask_all r pids s = Some s' /\
    forall p, a_pid p ->
      (In p pids -> h p = Listening -> exists e, ok_call 5 (evt_of s' (shutdown_event p)) = Some (e, false)) /\
      (In p pids -> h p = Unheard \/ h p = Deaf -> exists e, ok_call 5 (evt_of s' (shutdown_event p)) = Some (e, true)) /\
      (~ In p pids -> evt_of s' (shutdown_event p) = evt_of s (shutdown_event p)).
Proof.
  intros H A. destruct (ask_all_run pids r s h) as (s' & E & P); [intros p Ap; apply hears_rel, H, Ap|exact A|].
  exists s'. split; [exact E|]. intros p Ap. destruct (P p Ap) as [P1 P2]. repeat split; auto.
  - intros I L. destruct (P1 I) as (u & R). rewrite L in R. destruct (ok_rel _ _ _ R) as (e & b & K & _ & B).
    cbn in B. injection B as <-. exists e. exact K.
  - intros I L. destruct (P1 I) as (u & R). destruct (ok_rel _ _ _ R) as (e & b & K & _ & B).
    destruct L as [L|L]; rewrite L in B; cbn in B; injection B as <-; exists e; exact K.
Qed.

(** ** Counterexamples *)
Lemma early_counterexample : exists s, se_run (six 0 ++ ex_opened) sevt_init = Some (s, [true]) /\ finished s 0.
Proof. eexists. split; vm_compute; reflexivity. Qed.
Lemma again_counterexample : exists s, se_run (ex_opened ++ six 0 ++ [SOk] ++ six 1 ++ [SOk]) sevt_init = Some (s, [true; false; true]) /\
  finished s 0 /\ finished s 1.
Proof. eexists. split; [|split]; vm_compute; reflexivity. Qed.
Lemma null_lemma : exists s, se_run [SOk; SAsk 0; SAsk 0; SOk] sevt_init = Some (s, []) /\
  forall ops s' l, ~ In SDie ops -> se_run ops s = Some (s', l) -> ~ In false l.
Proof.
  eexists. split; [vm_compute; reflexivity|]. intros ops s' l N R. eapply null_run; [exact R|vm_compute; reflexivity|exact N].
Qed.
Lemma fault_lemma :
  (exists s l, se_run [SAsk 0; SAsk 0; SOk] sevt_init = Some (s, l) /\ se_step SOk s = None) /\
  (exists s l, se_run [SOk; SOk; SAsk 0] sevt_init = Some (s, l) /\ se_step (SAsk 0) s = None).
Proof. split; eexists _, _; split; vm_compute; reflexivity. Qed.
Lemma cleared_lemma : exists s1 s2 s3 l1 id,
  se_run [SAsk 0; SAsk 0; SAsk 0; SOk; SOk] sevt_init = Some (s1, l1) /\
  ephase_of (se_sys s1) 0 = EOpened true id false /\ es_link (se_sys s1) = Some id /\ not_begun s1 1 /\
  se_run [SAsk 1; SAsk 1; SAsk 1; SAsk 0; SOk] s1 = Some (s2, [true]) /\ finished s2 1 /\
  se_step SOk s2 = Some (s3, Some true).
Proof.
  eexists _, _, _, _, 0. split; [vm_compute; reflexivity|]. split; [reflexivity|]. split; [reflexivity|].
  split; [split; [reflexivity|intro H; apply H; reflexivity]|]. split; [vm_compute; reflexivity|]. split; reflexivity.
Qed.
Lemma next_process_lemma : exists s, se_run (ex_opened ++ [SAsk 0; SDie; SOk; SOk; SAsk 0; SOk]) sevt_init = Some (s, [true; true; false]).
Proof. eexists. vm_compute. reflexivity. Qed.
Lemma unit_name_lemma :
  (exists p, In p ex_procs /\ mp_uname p = str "app" /\ mp_host p = ex_host /\ ~ In (mp_pid p) (ask_name ex_host (str "app") ex_procs)) /\
  ask_name ex_host (str "app") ex_procs = [12%Z].
Proof.
  split; [|reflexivity]. exists (MProc 10 (str "/usr/bin/app") (str "app") (str "box")). cbn. repeat split; auto.
  intros [H|[]]. discriminate.
Qed.

Lemma core_unit u : is_core_unit u = true <-> In u core_units.
Proof.
  unfold is_core_unit, core_units. cbn [map In]. rewrite !Bool.orb_true_iff. split.
  - intros H. repeat (destruct H as [H|H]); apply eqb_true in H; subst u; tauto.
  - intros H. repeat (destruct H as [<-|H]; [rewrite eqb_refl; tauto|]). destruct H.
Qed.
Lemma ask_core_in host l pid : In pid (ask_core host l) <-> exists p, In p l /\ mp_pid p = pid /\ In (mp_uname p) core_units /\ mp_host p = host.
Proof.
  unfold ask_core. rewrite in_map_iff. split.
  - intros (p & E & F). apply filter_In in F. destruct F as [I0 F]. apply Bool.andb_true_iff in F. destruct F as [A B]. exists p. rewrite core_unit in A. apply eqb_true in B. auto.
  - intros (p & I0 & E & A & B). exists p. split; [exact E|]. apply filter_In. split; [exact I0|]. apply core_unit in A. rewrite A, B, eqb_refl. reflexivity.
Qed.
