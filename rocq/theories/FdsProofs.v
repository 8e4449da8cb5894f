(** Lemmas about the collection of file descriptors. *)
From Verif Require Import Base Sample FdsModel FdsSpec.

(** ** Folds *)
Lemma ofold_inv {A S} (f : A -> S -> option S) (I : S -> Prop) l :
  (forall a s s', In a l -> I s -> f a s = Some s' -> I s') -> forall s s', I s -> ofold f l s = Some s' -> I s'.
Proof.
  induction l as [|a l IH]; cbn; intros H s s' Hs E; [congruence|]. destruct (f a s) as [s1|] eqn:F; [|discriminate].
  apply (IH (fun b x y J => H b x y (or_intror J)) s1 s'); [|exact E]. apply (H a s s1); auto.
Qed.
Lemma ofold_some {A S} (f : A -> S -> option S) (I : S -> Prop) l :
  (forall a s, In a l -> I s -> exists s', f a s = Some s' /\ I s') -> forall s, I s -> exists s', ofold f l s = Some s' /\ I s'.
Proof.
  induction l as [|a l IH]; cbn; intros H s Hs; [eauto|]. destruct (H a s (or_introl eq_refl) Hs) as (s1 & E & H1). rewrite E.
  apply IH; [|exact H1]. intros b x J. apply H. right. exact J.
Qed.
Lemma ofold_reach {A S} (f : A -> S -> option S) (I : S -> Prop) (R : A -> S -> Prop) l :
  (forall a s s', In a l -> I s -> f a s = Some s' -> I s' /\ R a s') ->
  (forall a b s s', In b l -> I s -> f b s = Some s' -> R a s -> R a s') ->
  forall s s', I s -> ofold f l s = Some s' -> I s' /\ forall a, In a l -> R a s'.
Proof.
  intros H K. assert (Q : forall l', incl l' l -> forall s s', I s -> ofold f l' s = Some s' -> I s' /\ forall a, In a l' \/ R a s -> R a s').
  { induction l' as [|a l' IH]; cbn; intros N s s' Hs E; [injection E as <-; split; [exact Hs|]; tauto|].
    destruct (f a s) as [s1|] eqn:F; [|discriminate]. destruct (H a s s1 (N a (or_introl eq_refl)) Hs F) as [H1 R1].
    destruct (IH (fun b J => N b (or_intror J)) s1 s' H1 E) as [H2 R2]. split; [exact H2|]. intros b [[<-|J]|J]; apply R2; auto.
    right. apply (K b a s s1 (N a (or_introl eq_refl)) Hs F J). }
  intros s s' Hs E. destruct (Q l (incl_refl l) s s' Hs E) as [Q1 Q2]. split; [exact Q1|]. intros a J. apply Q2. auto.
Qed.
Lemma ofold_mono {A S} (f g : A -> S -> option S) l : (forall a s s', f a s = Some s' -> g a s = Some s') ->
  forall s s', ofold f l s = Some s' -> ofold g l s = Some s'.
Proof.
  intros H. induction l as [|a l IH]; cbn; intros s s' E; [exact E|]. destruct (f a s) as [s1|] eqn:F; [|discriminate].
  rewrite (H _ _ _ F). exact (IH _ _ E).
Qed.

(** ** More fuel *)
Definition dep_step (fu : nat) (w : world) (d : nat) (st : list nat * Z) : option (list nat * Z) :=
  match ofold (collect fu w) (ff_top (w_file w d)) st with
  | None => None
  | Some (s, c) => Some (fds_add w (ff_services (w_file w d)) d (fds_add w (ff_enums (w_file w d)) d s), c)
  end.
Definition field_step (fu : nat) (w : world) (t : option nat) (st : list nat * Z) : option (list nat * Z) :=
  match t with None => Some st | Some t => collect fu w t st end.
Lemma collect_eq fu w m st : collect (S fu) w m st =
  let fd := fm_file (w_msg w m) in
  match ofold (dep_step fu w) (ff_deps (w_file w fd)) (fst st, snd st + 1)%Z with
  | None => None
  | Some (s, c) => if fds_has w s fd then Some (s, c) else ofold (field_step fu w) (fm_fields (w_msg w m)) (s ++ [fd], c)
  end.
Proof. reflexivity. Qed.
Lemma collect_more w fuel : forall m st r, collect fuel w m st = Some r -> collect (S fuel) w m st = Some r.
Proof.
  induction fuel as [|fu IH]; intros m st r E; [discriminate|]. rewrite collect_eq in E |- *. cbn zeta in *.
  destruct (ofold (dep_step fu w) _ _) as [[s c]|] eqn:D; [|discriminate].
  assert (D' : ofold (dep_step (S fu) w) (ff_deps (w_file w (fm_file (w_msg w m)))) (fst st, (snd st + 1)%Z) = Some (s, c)).
  { revert D. apply ofold_mono. intros d s1 s2. unfold dep_step. destruct (ofold (collect fu w) _ _) as [p|] eqn:T; [|discriminate].
    rewrite (ofold_mono _ (collect (S fu) w) _ IH _ _ T). auto. }
  rewrite D'. destruct (fds_has w s _); [exact E|]. revert E. apply ofold_mono. intros [t|] s1 s2; cbn [field_step]; [apply IH|auto].
Qed.
Lemma collect_le w a b : a <= b -> forall m st r, collect a w m st = Some r -> collect b w m st = Some r.
Proof. intros L. induction L as [|b L IH]; intros m st r E; [exact E|]. apply collect_more. apply IH. exact E. Qed.
Lemma collect_det w a b m st r r' : collect a w m st = Some r -> collect b w m st = Some r' -> r = r'.
Proof.
  intros A B. destruct (Nat.le_ge_cases a b) as [L|L].
  - rewrite (collect_le w a b L _ _ _ A) in B. congruence.
  - rewrite (collect_le w b a L _ _ _ B) in A. congruence.
Qed.

(** ** The files only become more *)
Section W.
Context (w : world) (V : valid w).
Definition inside (s : list nat) : Prop := forall f, In f s -> f < w_files w.
Lemma has_in s f : inside s -> f < w_files w -> (fds_has w s f = true <-> In f s).
Proof.
  intros B F. unfold fds_has. rewrite existsb_exists. split.
  - intros (g & I & E). apply eqb_true in E. rewrite <- (v_names w V g f (B g I) F E). exact I.
  - intros I. exists f. split; [exact I|apply eqb_refl].
Qed.
Lemma has_not s f : inside s -> f < w_files w -> (fds_has w s f = false <-> ~ In f s).
Proof. intros B F. rewrite <- (has_in s f B F). destruct (fds_has w s f); intuition congruence. Qed.
Lemma add_spec b f s : inside s -> f < w_files w ->
  inside (fds_add w b f s) /\ (exists t, fds_add w b f s = s ++ t) /\ (NoDup s -> NoDup (fds_add w b f s)) /\
  (b = true -> In f (fds_add w b f s)) /\ (forall g, In g (fds_add w b f s) -> In g s \/ g = f).
Proof.
  intros B F. unfold fds_add. destruct b; cbn [andb].
  - destruct (fds_has w s f) eqn:H; cbn [negb].
    + apply (has_in s f B F) in H. repeat split; auto. exists []. rewrite app_nil_r. reflexivity.
    + apply (has_not s f B F) in H. repeat split.
      * intros g I. apply in_app_iff in I as [I|[<-|[]]]; auto.
      * eauto.
      * intros N. apply nodup_snoc; assumption.
      * intros _. apply in_app_iff. right. left. reflexivity.
      * intros g I. apply in_app_iff in I as [I|[<-|[]]]; auto.
  - repeat split; auto; [exists []; rewrite app_nil_r; reflexivity|discriminate].
Qed.
(** The facts about a call which starts with [s] and ends with [s']. *)
Record step (roots : nat -> Prop) (s s' : list nat) : Prop := {
  st_in : inside s';
  st_more : exists t, s' = s ++ t;
  st_nodup : NoDup s -> NoDup s';
  st_from : forall f, In f s' -> In f s \/ exists r, roots r /\ reaches w r f
}.
Lemma step_refl R s : inside s -> step R s s.
Proof. intros B. constructor; auto. exists []. rewrite app_nil_r. reflexivity. Qed.
Lemma step_trans R s1 s2 s3 : step R s1 s2 -> step R s2 s3 -> step R s1 s3.
Proof.
  intros [A1 (t & ->) A3 A4] [B1 (u & ->) B3 B4]. constructor; auto.
  - exists (t ++ u). rewrite app_assoc. reflexivity.
  - intros f I. destruct (B4 f I) as [J|J]; auto.
Qed.
Lemma step_weaken (R R' : nat -> Prop) s s' : (forall r, R r -> exists q, R' q /\ reaches w q r) -> step R s s' -> step R' s s'.
Proof.
  intros H [A1 A2 A3 A4]. constructor; auto. intros f I. destruct (A4 f I) as [J|(r & Rr & Q)]; [auto|right].
  destruct (H r Rr) as (q & Rq & P). exists q. split; [exact Rq|]. clear -P Q. induction P as [|x d y I P IHP]; [exact Q|].
  apply (reaches_step w x d f I). exact (IHP Q).
Qed.
Lemma step_add (R : nat -> Prop) b f s : inside s -> f < w_files w -> R f -> step R s (fds_add w b f s).
Proof.
  intros B F Rf. destruct (add_spec b f s B F) as (A1 & A2 & A3 & _ & A5). constructor; auto.
  intros g I. destruct (A5 g I) as [J| ->]; [auto|right]. exists f. split; [exact Rf|constructor].
Qed.
Lemma in_more R s s' f : step R s s' -> In f s -> In f s'.
Proof. intros [_ (t & ->) _ _] I. apply in_app_iff. auto. Qed.

Lemma collect_step fuel : forall m st r, m < w_msgs w -> inside (fst st) -> collect fuel w m st = Some r ->
  step (eq (fm_file (w_msg w m))) (fst st) (fst r) /\ In (fm_file (w_msg w m)) (fst r).
Proof.
  induction fuel as [|fu IH]; intros m st r M B E; [discriminate|]. rewrite collect_eq in E. cbn zeta in E.
  set (fd := fm_file (w_msg w m)) in *. assert (F : fd < w_files w) by (apply (v_file w V); exact M).
  destruct (ofold (dep_step fu w) _ _) as [[s c]|] eqn:D; [|discriminate].
  assert (S1 : step (eq fd) (fst st) s).
  { apply (ofold_inv (dep_step fu w) (fun x => step (eq fd) (fst st) (fst x))) with (3 := D); [|cbn; apply step_refl; exact B].
    intros d x x' Id Sx Ex. unfold dep_step in Ex. destruct (ofold (collect fu w) _ _) as [[s1 c1]|] eqn:T; [|discriminate]. injection Ex as <-. cbn [fst].
    assert (Fd : d < w_files w) by (pose proof (v_deps w V fd d F Id); lia).
    apply (step_trans _ _ (fst x)); [exact Sx|].
    apply (step_weaken (eq d)); [intros r' <-; exists fd; split; [reflexivity|]; apply (reaches_step w fd d d Id); constructor|].
    assert (S2 : step (eq d) (fst x) s1).
    { apply (ofold_inv (collect fu w) (fun y => step (eq d) (fst x) (fst y))) with (3 := T); [|apply step_refl; apply Sx].
      intros t y y' It Sy Ey. destruct (v_top w V d t Fd It) as [Mt Ft]. apply (step_trans _ _ (fst y)); [exact Sy|].
      rewrite <- Ft. apply (IH t y y' Mt); [apply Sy|exact Ey]. }
    apply (step_trans _ _ s1); [exact S2|]. pose proof (step_add (eq d) (ff_enums (w_file w d)) d s1 (st_in _ _ _ S2) Fd eq_refl) as S3.
    apply (step_trans _ _ (fds_add w (ff_enums (w_file w d)) d s1)); [exact S3|]. apply step_add; [apply S3|exact Fd|reflexivity]. }
  destruct (fds_has w s fd) eqn:H.
  - injection E as <-. split; [exact S1|]. apply (has_in s fd (st_in _ _ _ S1) F). exact H.
  - apply (has_not s fd (st_in _ _ _ S1) F) in H.
    assert (S2 : step (eq fd) s (s ++ [fd])).
    { constructor.
      - intros g I. apply in_app_iff in I as [I|[<-|[]]]; [apply S1; exact I|exact F].
      - eauto.
      - intros N. apply nodup_snoc; assumption.
      - intros g I. apply in_app_iff in I as [I|[<-|[]]]; [auto|right]. exists fd. split; [reflexivity|constructor]. }
    assert (S3 : step (eq fd) (s ++ [fd]) (fst r)).
    { apply (ofold_inv (field_step fu w) (fun x => step (eq fd) (s ++ [fd]) (fst x))) with (3 := E); [|apply step_refl; apply S2].
      intros [t|] x x' It Sx Ex; cbn [field_step] in Ex; [|congruence]. destruct (v_fields w V m t M It) as [Mt Rt].
      apply (step_trans _ _ (fst x)); [exact Sx|]. apply (step_weaken (eq (fm_file (w_msg w t)))); [intros q <-; exists fd; auto|].
      apply (IH t x x' Mt); [apply Sx|exact Ex]. }
    split; [apply (step_trans _ _ s); [exact S1|]; apply (step_trans _ _ (s ++ [fd])); assumption|].
    apply (in_more _ _ _ _ S3). apply in_app_iff. right. left. reflexivity.
Qed.

(** ** It ends *)
Definition missing (s : list nat) : nat := length (filter (fun f => negb (existsb (Nat.eqb f) s)) (seq 0 (w_files w))).
Lemma missing_le s t : missing (s ++ t) <= missing s.
Proof.
  unfold missing. induction (seq 0 (w_files w)) as [|f l IH]; [reflexivity|]. cbn. rewrite existsb_app.
  destruct (existsb (Nat.eqb f) s); cbn [orb negb]; [exact IH|]. destruct (existsb (Nat.eqb f) t); cbn; lia.
Qed.
Lemma filter_less {A} (p q : A -> bool) l x : (forall y, q y = true -> p y = true) -> In x l -> p x = true -> q x = false ->
  length (filter q l) < length (filter p l).
Proof.
  intros H. assert (LE : forall l, length (filter q l) <= length (filter p l)).
  { clear - H. induction l as [|y l IH]; [reflexivity|]. cbn. destruct (q y) eqn:Q; [rewrite (H y Q); cbn; lia|]. destruct (p y); cbn; lia. }
  induction l as [|y l IH]; intros I P Q; [destruct I|]. cbn. destruct I as [->|I].
  - rewrite P, Q. cbn. specialize (LE l). lia.
  - specialize (IH I P Q). destruct (q y) eqn:Qy; [rewrite (H y Qy); cbn; lia|]. destruct (p y); cbn; lia.
Qed.
Lemma missing_lt s f : f < w_files w -> ~ In f s -> missing (s ++ [f]) < missing s.
Proof.
  intros F N. unfold missing. apply (filter_less _ _ _ f).
  - intros y. rewrite existsb_app, negb_orb. intros E. apply andb_true_iff in E. tauto.
  - apply in_seq. lia.
  - apply negb_true_iff. destruct (existsb (Nat.eqb f) s) eqn:E; [|reflexivity]. exfalso. apply existsb_exists in E as (g & I & Q).
    apply Nat.eqb_eq in Q. subst g. tauto.
  - rewrite existsb_app. cbn. rewrite Nat.eqb_refl, orb_true_r. reflexivity.
Qed.
Lemma collect_ends fuel : forall m st, m < w_msgs w -> inside (fst st) ->
  missing (fst st) * S (w_files w) + fm_file (w_msg w m) < fuel -> exists r, collect fuel w m st = Some r.
Proof.
  induction fuel as [|fu IH]; intros m st M B L; [lia|]. rewrite collect_eq. cbn zeta.
  set (fd := fm_file (w_msg w m)) in *. assert (F : fd < w_files w) by (apply (v_file w V); exact M).
  assert (D : exists st1, ofold (dep_step fu w) (ff_deps (w_file w fd)) (fst st, (snd st + 1)%Z) = Some st1 /\ step (fun _ => True) (fst st) (fst st1)).
  { apply (ofold_some (dep_step fu w) (fun x => step (fun _ => True) (fst st) (fst x))); [|cbn; apply step_refl; exact B].
    intros d x Id Sx. unfold dep_step. pose proof (v_deps w V fd d F Id) as Ld. assert (Fd : d < w_files w) by lia.
    assert (T : exists y, ofold (collect fu w) (ff_top (w_file w d)) x = Some y /\ step (fun _ => True) (fst st) (fst y)).
    { apply (ofold_some (collect fu w) (fun y => step (fun _ => True) (fst st) (fst y))); [|exact Sx].
      intros t y It Sy. destruct (v_top w V d t Fd It) as [Mt Ft].
      assert (Q : missing (fst y) <= missing (fst st)) by (destruct Sy as [_ (z & ->) _ _]; apply missing_le).
      destruct (IH t y Mt (st_in _ _ _ Sy)) as (y' & Ey); [rewrite Ft; nia|]. exists y'. split; [exact Ey|].
      apply (step_trans _ _ (fst y)); [exact Sy|]. destruct (collect_step fu t y y' Mt (st_in _ _ _ Sy) Ey) as [S1 _].
      apply (step_weaken _ _ _ _ (fun r _ => ex_intro _ r (conj Logic.I (reaches_self w r))) S1). }
    destruct T as ([s1 c1] & -> & Sy). eexists. split; [reflexivity|]. cbn [fst] in *.
    apply (step_trans _ _ s1); [exact Sy|]. pose proof (step_add (fun _ => True) (ff_enums (w_file w d)) d s1 (st_in _ _ _ Sy) Fd Logic.I) as S3.
    apply (step_trans _ _ (fds_add w (ff_enums (w_file w d)) d s1)); [exact S3|]. apply step_add; [apply S3|exact Fd|exact Logic.I]. }
  destruct D as ([s c] & -> & S1). cbn [fst] in S1. destruct (fds_has w s fd) eqn:H; [eauto|].
  apply (has_not s fd (st_in _ _ _ S1) F) in H.
  assert (Q : missing (s ++ [fd]) < missing (fst st)).
  { pose proof (missing_lt s fd F H). destruct S1 as [_ (z & ->) _ _]. pose proof (missing_le (fst st) z). lia. }
  assert (B2 : inside (s ++ [fd])).
  { intros g I. apply in_app_iff in I as [I|[<-|[]]]; [apply S1; exact I|exact F]. }
  destruct (ofold_some (field_step fu w) (fun x => step (fun _ => True) (s ++ [fd]) (fst x)) (fm_fields (w_msg w m))) with (s := (s ++ [fd], c)) as (r & E & _); [|apply step_refl; exact B2|eauto].
  intros [t|] x It Sx; cbn [field_step]; [|eauto]. destruct (v_fields w V m t M It) as [Mt Rt].
  assert (Qx : missing (fst x) <= missing (s ++ [fd])) by (destruct Sx as [_ (z & ->) _ _]; apply missing_le).
  pose proof (v_file w V t Mt). destruct (IH t x Mt (st_in _ _ _ Sx)) as (x' & Ex); [nia|]. exists x'. split; [exact Ex|].
  apply (step_trans _ _ (fst x)); [exact Sx|]. destruct (collect_step fu t x x' Mt (st_in _ _ _ Sx) Ex) as [S2 _].
  apply (step_weaken _ _ _ _ (fun r _ => ex_intro _ r (conj Logic.I (reaches_self w r))) S2).
Qed.

(** ** Order *)
Lemma buildable_snoc s f : buildable w s -> (forall d, In d (ff_deps (w_file w f)) -> In d s) -> buildable w (s ++ [f]).
Proof.
  intros B H a g b E d Id. destruct b as [|x b] using rev_ind.
  - apply app_inj_tail in E as [-> ->]. apply H. exact Id.
  - rewrite app_comm_cons, app_assoc in E. apply app_inj_tail in E as [-> ->]. exact (B a g b eq_refl d Id).
Qed.
Lemma buildable_deps s f d : buildable w s -> In f s -> In d (ff_deps (w_file w f)) -> In d s.
Proof. intros B I Id. apply in_split in I as (a & b & E). rewrite E. apply in_app_iff. left. exact (B a f b E d Id). Qed.
Lemma buildable_reach s f g : buildable w s -> In f s -> reaches w f g -> In g s.
Proof. intros B I R. induction R as [|f d g Id R IH]; [exact I|]. apply IH. exact (buildable_deps s f d B I Id). Qed.
Lemma reaches_le f g : f < w_files w -> reaches w f g -> g <= f.
Proof.
  intros F R. induction R as [|f d g Id R IH]; [lia|]. pose proof (v_deps w V f d F Id). assert (d < w_files w) by lia. specialize (IH H0). lia.
Qed.
Lemma reaches_tr a b c : reaches w a b -> reaches w b c -> reaches w a c.
Proof. intros R. induction R as [|f d g Id R IH]; intros Q; [exact Q|]. exact (reaches_step w f d c Id (IH Q)). Qed.
Lemma add_buildable b d s : inside s -> d < w_files w -> buildable w s -> (forall x, In x (ff_deps (w_file w d)) -> In x s) ->
  buildable w (fds_add w b d s).
Proof. intros B F H D. unfold fds_add. destruct (_ && _)%bool; [|exact H]. apply buildable_snoc; assumption. Qed.

(** All files which are imported, directly or not, are substantial. *)
Definition good_below (f : nat) : Prop := forall d g, In d (ff_deps (w_file w f)) -> reaches w d g -> substantial w g.
Lemma good_deps f d : good_below f -> In d (ff_deps (w_file w f)) -> good_below d.
Proof. intros G Id x g Ix R. apply (G d g Id). exact (reaches_step w d x g Ix R). Qed.
Lemma good_reach f g : good_below f -> reaches w f g -> good_below g.
Proof. intros G R. induction R as [|f d g Id R IH]; [exact G|]. apply IH. exact (good_deps f d G Id). Qed.

Lemma deps_build fu m st st1 : (forall m st r, m < w_msgs w -> inside (fst st) -> collect fu w m st = Some r ->
      good_below (fm_file (w_msg w m)) -> buildable w (fst st) -> buildable w (fst r)) ->
  m < w_msgs w -> inside (fst st) -> good_below (fm_file (w_msg w m)) -> buildable w (fst st) ->
  ofold (dep_step fu w) (ff_deps (w_file w (fm_file (w_msg w m)))) (fst st, (snd st + 1)%Z) = Some st1 ->
  inside (fst st1) /\ buildable w (fst st1) /\ (forall d, In d (ff_deps (w_file w (fm_file (w_msg w m)))) -> In d (fst st1)) /\
  step (fun r => In r (ff_deps (w_file w (fm_file (w_msg w m))))) (fst st) (fst st1).
Proof.
  intros IH M B G C D. set (fd := fm_file (w_msg w m)) in *. assert (F : fd < w_files w) by (apply (v_file w V); exact M).
  destruct (ofold_reach (dep_step fu w) (fun x => step (fun r => In r (ff_deps (w_file w fd))) (fst st) (fst x) /\ buildable w (fst x)) (fun d x => In d (fst x))) with (4 := D) as [[H1 H2] H3].
  - intros d x x' Id [Sx Cx] Ex. unfold dep_step in Ex. destruct (ofold (collect fu w) _ _) as [[s1 c1]|] eqn:T; [|discriminate]. injection Ex as <-. cbn [fst].
    assert (Fd : d < w_files w) by (pose proof (v_deps w V fd d F Id); lia).
    assert (Q : (step (eq d) (fst x) s1 /\ buildable w s1) /\ forall t, In t (ff_top (w_file w d)) -> In d s1).
    { apply (ofold_reach (collect fu w) (fun y => step (eq d) (fst x) (fst y) /\ buildable w (fst y)) (fun _ y => In d (fst y))) with (4 := T).
      - intros t y y' It [Sy Cy] Ey. destruct (v_top w V d t Fd It) as [Mt Ft].
        destruct (collect_step fu t y y' Mt (st_in _ _ _ Sy) Ey) as [S1 I1]. rewrite Ft in S1, I1. split; [split|exact I1].
        + apply (step_trans _ _ (fst y)); assumption.
        + apply (IH t y y' Mt (st_in _ _ _ Sy) Ey); [rewrite Ft; exact (good_deps fd d G Id)|exact Cy].
      - intros _ t y y' It [Sy _] Ey J. destruct (v_top w V d t Fd It) as [Mt Ft].
        destruct (collect_step fu t y y' Mt (st_in _ _ _ Sy) Ey) as [S1 _]. exact (in_more _ _ _ _ S1 J).
      - split; [apply step_refl; apply Sx|exact Cx]. }
    destruct Q as [[S1 C1] J1].
    pose proof (step_add (eq d) (ff_enums (w_file w d)) d s1 (st_in _ _ _ S1) Fd eq_refl) as S3.
    pose proof (step_add (eq d) (ff_services (w_file w d)) d _ (st_in _ _ _ S3) Fd eq_refl) as S4.
    destruct (G d d Id (reaches_self w d)) as [N|[N1 N2]].
    + assert (J : In d s1).
      { destruct (ff_top (w_file w d)) as [|t l]; [congruence|]. apply (J1 t). left. reflexivity. }
      assert (DS : forall y, In y (ff_deps (w_file w d)) -> In y s1) by (intros y Iy; exact (buildable_deps s1 d y C1 J Iy)).
      split; [split|].
      * apply (step_trans _ _ (fst x)); [exact Sx|]. apply (step_weaken (eq d)); [intros r <-; exists d; split; [exact Id|constructor]|].
        apply (step_trans _ _ s1); [exact S1|]. apply (step_trans _ _ (fds_add w (ff_enums (w_file w d)) d s1)); assumption.
      * apply add_buildable; [apply S3|exact Fd| |].
        -- apply add_buildable; [apply S1|exact Fd|exact C1|exact DS].
        -- intros y Iy. apply (in_more _ _ _ _ S3). apply DS. exact Iy.
      * apply (in_more _ _ _ _ S4). apply (in_more _ _ _ _ S3). exact J.
    + split; [split|].
      * apply (step_trans _ _ (fst x)); [exact Sx|]. apply (step_weaken (eq d)); [intros r <-; exists d; split; [exact Id|constructor]|].
        apply (step_trans _ _ s1); [exact S1|]. apply (step_trans _ _ (fds_add w (ff_enums (w_file w d)) d s1)); assumption.
      * apply add_buildable; [apply S3|exact Fd| |rewrite N2; intros y []].
        apply add_buildable; [apply S1|exact Fd|exact C1|rewrite N2; intros y []].
      * apply orb_true_iff in N1 as [N1|N1]; rewrite N1 in *.
        -- apply (in_more _ _ _ _ S4). apply (add_spec true d s1 (st_in _ _ _ S1) Fd). reflexivity.
        -- apply (add_spec true d _ (st_in _ _ _ S3) Fd). reflexivity.
  - intros d e x x' Ie [Sx _] Ex J. unfold dep_step in Ex. destruct (ofold (collect fu w) _ _) as [[s1 c1]|] eqn:T; [|discriminate]. injection Ex as <-. cbn [fst].
    assert (Fe : e < w_files w) by (pose proof (v_deps w V fd e F Ie); lia).
    assert (S1 : step (eq e) (fst x) s1).
    { apply (ofold_inv (collect fu w) (fun y => step (eq e) (fst x) (fst y))) with (3 := T); [|apply step_refl; apply Sx].
      intros t y y' It Sy Ey. destruct (v_top w V e t Fe It) as [Mt Ft]. apply (step_trans _ _ (fst y)); [exact Sy|].
      rewrite <- Ft. apply (collect_step fu t y y' Mt (st_in _ _ _ Sy) Ey). }
    pose proof (step_add (eq e) (ff_enums (w_file w e)) e s1 (st_in _ _ _ S1) Fe eq_refl) as S3.
    pose proof (step_add (eq e) (ff_services (w_file w e)) e _ (st_in _ _ _ S3) Fe eq_refl) as S4.
    apply (in_more _ _ _ _ S4). apply (in_more _ _ _ _ S3). apply (in_more _ _ _ _ S1). exact J.
  - cbn. split; [apply step_refl; exact B|exact C].
  - split; [apply H1|]. split; [exact H2|]. split; [exact H3|exact H1].
Qed.
Lemma collect_build fuel : forall m st r, m < w_msgs w -> inside (fst st) -> collect fuel w m st = Some r ->
  good_below (fm_file (w_msg w m)) -> buildable w (fst st) -> buildable w (fst r).
Proof.
  induction fuel as [|fu IH]; intros m st r M B E G C; [discriminate|]. rewrite collect_eq in E. cbn zeta in E.
  destruct (ofold (dep_step fu w) _ _) as [[s c]|] eqn:D; [|discriminate].
  destruct (deps_build fu m st (s, c) IH M B G C D) as (B1 & C1 & J1 & _). cbn [fst] in *.
  set (fd := fm_file (w_msg w m)) in *. assert (F : fd < w_files w) by (apply (v_file w V); exact M).
  destruct (fds_has w s fd) eqn:H; [injection E as <-; exact C1|].
  assert (Q : inside (fst r) /\ buildable w (fst r)); [|apply Q].
  apply (ofold_inv (field_step fu w) (fun x => inside (fst x) /\ buildable w (fst x))) with (3 := E).
  - intros [t|] x x' It [Bx Cx] Ex; cbn [field_step] in Ex; [|injection Ex as <-; auto]. destruct (v_fields w V m t M It) as [Mt Rt].
    destruct (collect_step fu t x x' Mt Bx Ex) as [S1 _]. split; [apply S1|].
    apply (IH t x x' Mt Bx Ex); [|exact Cx]. exact (good_reach fd _ G Rt).
  - split; [|apply buildable_snoc; assumption]. intros g I. apply in_app_iff in I as [I|[<-|[]]]; auto.
Qed.
(** Nothing is added for a file which is there with all it imports. *)
Lemma collect_noop fuel : forall m st r, m < w_msgs w -> inside (fst st) -> collect fuel w m st = Some r ->
  buildable w (fst st) -> In (fm_file (w_msg w m)) (fst st) -> fst r = fst st.
Proof.
  induction fuel as [|fu IH]; intros m st r M B E C J; [discriminate|]. rewrite collect_eq in E. cbn zeta in E.
  set (fd := fm_file (w_msg w m)) in *. assert (F : fd < w_files w) by (apply (v_file w V); exact M).
  destruct (ofold (dep_step fu w) _ _) as [[s c]|] eqn:D; [|discriminate].
  assert (Q : s = fst st).
  { change s with (fst (s, c)). apply (ofold_inv (dep_step fu w) (fun x => fst x = fst st)) with (3 := D); [|reflexivity].
    intros d x x' Id Ex Dx. unfold dep_step in Dx. destruct (ofold (collect fu w) _ _) as [[s1 c1]|] eqn:T; [|discriminate]. injection Dx as <-. cbn [fst].
    assert (Fd : d < w_files w) by (pose proof (v_deps w V fd d F Id); lia).
    assert (Jd : In d (fst st)) by (exact (buildable_deps _ fd d C J Id)).
    assert (S1 : s1 = fst st).
    { change s1 with (fst (s1, c1)). apply (ofold_inv (collect fu w) (fun y => fst y = fst st)) with (3 := T); [|exact Ex].
      intros t y y' It Ey Dy. destruct (v_top w V d t Fd It) as [Mt Ft]. rewrite (IH t y y' Mt) with (2 := Dy); [exact Ey| | |]; rewrite Ey; auto. rewrite Ft. exact Jd. }
    subst s1. assert (A : forall b, fds_add w b d (fst st) = fst st).
    { intros b. unfold fds_add. rewrite (proj2 (has_in _ d B Fd) Jd), andb_false_r. reflexivity. }
    rewrite !A. reflexivity. }
  subst s. rewrite (proj2 (has_in _ fd B F) J) in E. injection E as <-. reflexivity.
Qed.
Lemma collect_last fuel m r : m < w_msgs w -> collect fuel w m ([], 0%Z) = Some r -> good_below (fm_file (w_msg w m)) ->
  exists s, fst r = s ++ [fm_file (w_msg w m)].
Proof.
  intros M E G. destruct fuel as [|fu]; [discriminate|]. rewrite collect_eq in E. cbn zeta in E.
  set (fd := fm_file (w_msg w m)) in *. assert (F : fd < w_files w) by (apply (v_file w V); exact M).
  assert (B0 : inside (@nil nat)) by (intros f []). assert (C0 : buildable w []) by (intros a f b H; destruct a; discriminate).
  destruct (ofold (dep_step fu w) _ _) as [[s c]|] eqn:D; [|discriminate].
  destruct (deps_build fu m ([], 0%Z) (s, c) (collect_build fu) M B0 G C0 D) as (B1 & C1 & J1 & S1). cbn [fst] in *. fold fd in J1, S1.
  assert (N : ~ In fd s).
  { intros I. destruct S1 as [_ _ _ S1]. destruct (S1 fd I) as [[]|(d & Id & R)]. pose proof (v_deps w V fd d F Id) as L.
    apply reaches_le in R; lia. }
  rewrite (proj2 (has_not s fd B1 F) N) in E. exists s.
  apply (ofold_inv (field_step fu w) (fun x => fst x = s ++ [fd])) with (3 := E); [|reflexivity].
  intros [t|] x x' It Ex Dx; cbn [field_step] in Dx; [|injection Dx as <-; exact Ex]. destruct (v_fields w V m t M It) as [Mt Rt].
  assert (C2 : buildable w (s ++ [fd])) by (apply buildable_snoc; assumption).
  assert (B2 : inside (s ++ [fd])) by (intros g I; apply in_app_iff in I as [I|[<-|[]]]; auto).
  rewrite (collect_noop fu t x x' Mt) with (2 := Dx); [exact Ex| | |]; rewrite Ex; auto.
  apply (buildable_reach _ fd); auto. apply in_app_iff. right. left. reflexivity.
Qed.
End W.

(** ** The statements *)
Lemma ends_lemma w m : valid w -> m < w_msgs w -> exists s c, described w m s c.
Proof.
  intros V M. destruct (collect_ends w V (S (missing w [] * S (w_files w) + fm_file (w_msg w m))) m ([], 0%Z) M) as ([s c] & E).
  - intros f [].
  - cbn [fst]. lia.
  - exists s, c. eexists. exact E.
Qed.
Lemma unique_lemma w m s c s' c' : described w m s c -> described w m s' c' -> s = s' /\ c = c'.
Proof. intros (a & A) (b & B). pose proof (collect_det w a b m _ _ _ A B) as E. injection E as -> ->. auto. Qed.
Lemma once_lemma w m s c : valid w -> m < w_msgs w -> described w m s c ->
  NoDup (map (fun f => ff_name (w_file w f)) s) /\ In (fm_file (w_msg w m)) s /\
  forall f, In f s -> reaches w (fm_file (w_msg w m)) f.
Proof.
  intros V M (fuel & E). destruct (collect_step w V fuel m ([], 0%Z) (s, c) M (fun f H => match H with end) E) as [[B _ N R] J]. cbn [fst] in *.
  split; [|split; [exact J|]].
  - specialize (N (NoDup_nil _)). clear -N B V. induction s as [|f s IH]; [constructor|]. inversion N as [|? ? Nf N']; subst. cbn. constructor.
    + intros I. apply in_map_iff in I as (g & Eg & I). apply (v_names w V) in Eg; [subst g; tauto|apply B; right; exact I|apply B; left; reflexivity].
    + apply IH; [intros g I; apply B; right; exact I|exact N'].
  - intros f I. destruct (R f I) as [[]|(r & <- & Q)]. exact Q.
Qed.
Lemma complete_lemma w m s c : valid w -> m < w_msgs w -> described w m s c ->
  (forall f, reaches w (fm_file (w_msg w m)) f -> f <> fm_file (w_msg w m) -> substantial w f) ->
  (forall f, In f s <-> reaches w (fm_file (w_msg w m)) f) /\ buildable w s /\ exists s', s = s' ++ [fm_file (w_msg w m)].
Proof.
  intros V M D G. pose proof (once_lemma w m s c V M D) as (_ & J & R). destruct D as (fuel & E).
  assert (Fm : fm_file (w_msg w m) < w_files w) by (apply (v_file w V); exact M).
  assert (GB : good_below w (fm_file (w_msg w m))).
  { intros d g Id Rg. apply G; [exact (reaches_step w _ d g Id Rg)|]. intros ->. pose proof (v_deps w V _ d Fm Id).
    apply (reaches_le w V) in Rg; lia. }
  assert (C : buildable w s).
  { apply (collect_build w V fuel m ([], 0%Z) (s, c) M (fun f H => match H with end) E GB). intros a f b H. destruct a; discriminate. }
  split; [|split; [exact C|]].
  - intros f. split; [apply R|]. intros Q. exact (buildable_reach w s _ f C J Q).
  - exact (collect_last w V fuel m (s, c) M E GB).
Qed.

Lemma chain_valid n : valid (chain_world n).
Proof.
  constructor; cbn.
  - intros [|f] d F I; [destruct I|]. destruct I as [<-|[]]. lia.
  - intros f m F I. destruct I as [<-|[<-|[]]]; cbn.
    + split; [lia|]. replace (f + (f + 0)) with (2 * f) by lia. apply Nat.div2_double.
    + split; [lia|]. replace (f + (f + 0) + 1) with (S (2 * f)) by lia. apply Nat.div2_succ_double.
  - intros m M. pose proof (Nat.div2_odd m) as D. destruct (Nat.odd m); cbn [Nat.b2n] in D; lia.
  - intros m t M [E|[]]. discriminate.
  - intros f g _ _ E. injection E as E. lia.
Qed.
Lemma chain_cost n fuel : forall m st r, collect fuel (chain_world n) m st = Some r ->
  (snd st + 2 ^ Z.of_nat (Nat.div2 m) <= snd r)%Z.
Proof.
  induction fuel as [|fu IH]; intros m st r E; [discriminate|]. rewrite collect_eq in E. cbn zeta in E.
  cbn [fm_file w_msg chain_world msg_of w_file file_of ff_deps] in E.
  assert (F : forall s c r, ofold (field_step fu (chain_world n)) [None] (s, c) = Some r -> snd r = c) by (cbn; intros s c r0 H; injection H as <-; reflexivity).
  destruct (Nat.div2 m) as [|d] eqn:Dm.
  - cbn [ofold] in E. destruct (fds_has _ _ _).
    + injection E as <-. cbn. lia.
    + apply F in E. rewrite E. cbn [Z.of_nat]. lia.
  - cbn [ofold] in E. destruct (dep_step fu (chain_world n) d (fst st, (snd st + 1)%Z)) as [[s c]|] eqn:D; [|discriminate].
    assert (L : (snd st + 1 + 2 ^ Z.of_nat d + 2 ^ Z.of_nat d <= c)%Z).
    { unfold dep_step in D. change (ff_top (w_file (chain_world n) d)) with [2 * d; 2 * d + 1] in D.
      cbn [ofold] in D.
      destruct (collect fu (chain_world n) (2 * d) (fst st, (snd st + 1)%Z)) as [y|] eqn:Y; [|discriminate].
      destruct (collect fu (chain_world n) (2 * d + 1) y) as [[s1 c1]|] eqn:Z; [|discriminate]. injection D as _ <-.
      apply IH in Y. apply IH in Z. cbn [snd] in Y, Z. rewrite Nat.div2_double in Y.
      replace (2 * d + 1) with (S (2 * d)) in Z by lia. rewrite Nat.div2_succ_double in Z. lia. }
    assert (R : snd r = c).
    { destruct (fds_has _ _ _); [injection E as <-; reflexivity|apply F in E; exact E]. }
    rewrite R. rewrite Nat2Z.inj_succ, Z.pow_succ_r by lia. lia.
Qed.
Lemma cost_lemma n s c : described (chain_world n) (2 * n) s c -> (2 ^ Z.of_nat n <= c)%Z.
Proof. intros (fuel & E). apply chain_cost in E. rewrite Nat.div2_double in E. cbn in E. lia. Qed.

Ltac small x := repeat (destruct x as [|x]; [|try lia]).
Lemma plain_valid : valid plain_world.
Proof.
  constructor; cbn.
  - intros f d F I. destruct f as [|[|f]]; cbn in I; intuition lia.
  - intros f m F I. destruct f as [|[|f]]; cbn in I; destruct I as [<-|[]]; cbn; lia.
  - intros m M. destruct m as [|[|m]]; cbn; lia.
  - assert (R : forall f, f < 3 -> reaches plain_world 2 f).
    { intros f F. destruct f as [|[|[|f]]]; [| |constructor|lia].
      - apply (reaches_step plain_world 2 0); [cbn; auto|constructor].
      - apply (reaches_step plain_world 2 1); [cbn; auto|constructor]. }
    intros m t M I. destruct m as [|[|m]]; cbn in I.
    + destruct I as [E|[]]. discriminate.
    + destruct I as [E|[]]. injection E as <-. cbn. split; [lia|]. apply (reaches_step plain_world 1 0); [cbn; auto|constructor].
    + destruct I as [E|[E|[E|[E|[]]]]]; try discriminate; injection E as <-; cbn; (split; [lia|apply R; lia]).
  - intros f g F G E. destruct f as [|[|[|f]]], g as [|[|[|g]]]; try lia; vm_compute in E; discriminate.
Qed.
Lemma plain_case : valid plain_world /\ described plain_world 2 [0; 1; 2] 12%Z /\
  forall f, f < 3 -> substantial plain_world f.
Proof.
  split; [exact plain_valid|]. split; [exists 10; vm_compute; reflexivity|].
  intros f F. left. destruct f as [|[|f]]; discriminate.
Qed.
Lemma forward_valid : valid forward_world.
Proof.
  constructor; cbn.
  - intros f d F I. destruct f as [|[|f]]; cbn in I; intuition lia.
  - intros f m F I. destruct f as [|[|f]]; cbn in I; try (destruct I; fail); destruct I as [<-|[]]; cbn; lia.
  - intros m M. destruct m as [|m]; cbn; lia.
  - intros m t M I. destruct m as [|m]; cbn in I; destruct I as [E|[]]; [discriminate|]. injection E as <-. cbn. split; [lia|].
    apply (reaches_step forward_world 2 1); [cbn; auto|]. apply (reaches_step forward_world 1 0); [cbn; auto|constructor].
  - intros f g F G E. destruct f as [|[|[|f]]], g as [|[|[|g]]]; try lia; vm_compute in E; discriminate.
Qed.
Lemma service_valid : valid service_world.
Proof.
  constructor; cbn.
  - intros f d F I. destruct f as [|[|f]]; cbn in I; intuition lia.
  - intros f m F I. destruct f as [|[|f]]; cbn in I; try (destruct I; fail); destruct I as [<-|[]]; cbn; lia.
  - intros m M. destruct m as [|m]; cbn; lia.
  - intros m t M I. destruct m as [|m]; cbn in I; destruct I as [E|[]]; discriminate.
  - intros f g F G E. destruct f as [|[|[|f]]], g as [|[|[|g]]]; try lia; vm_compute in E; discriminate.
Qed.
Lemma forward_bad : valid forward_world /\ (exists c, described forward_world 1 [2; 0] c) /\ In 1 (ff_deps (w_file forward_world 2)) /\
  ~ buildable forward_world [2; 0].
Proof.
  split; [exact forward_valid|]. split; [eexists; exists 10; vm_compute; reflexivity|]. split; [left; reflexivity|].
  intros B. destruct (B [] 2 [0] eq_refl 1 (or_introl eq_refl)).
Qed.
Lemma service_bad : valid service_world /\ (exists c, described service_world 1 [1; 2] c) /\ In 0 (ff_deps (w_file service_world 1)) /\
  ~ buildable service_world [1; 2].
Proof.
  split; [exact service_valid|]. split; [eexists; exists 10; vm_compute; reflexivity|]. split; [left; reflexivity|].
  intros B. destruct (B [] 1 [2] eq_refl 0 (or_introl eq_refl)).
Qed.
Lemma chain_case : exists s, described (chain_world 8) 16 s 511%Z /\ length s = 9.
Proof. eexists. split; [exists 12; vm_compute; reflexivity|reflexivity]. Qed.
