(** * Rac: proofs *)
From Coq Require Import List Bool Arith Lia.
From Verif Require Import Base RacModel RacSpec.
Import ListNotations.

(** ** Lists *)
Inductive subl {A} : list A -> list A -> Prop :=
| subl_nil l : subl [] l
| subl_keep x a b : subl a b -> subl (x :: a) (x :: b)
| subl_more x a b : subl a b -> subl a (x :: b).

Lemma subl_refl {A} (a : list A) : subl a a.
Proof. induction a; constructor; auto. Qed.
Lemma subl_trans {A} (b c : list A) : subl b c -> forall a, subl a b -> subl a c.
Proof.
  induction 1 as [l|x b c H IH|x b c H IH]; intros a Q.
  - inversion Q; subst; constructor.
  - inversion Q; subst; [constructor|constructor; auto|apply subl_more; auto].
  - apply subl_more; auto.
Qed.
Lemma subl_incl {A} (a b : list A) : subl a b -> incl a b.
Proof.
  induction 1 as [l|x a b H IH|x a b H IH]; intros y Q; [destruct Q| |].
  - destruct Q as [->|Q]; [now left|right; auto].
  - right; auto.
Qed.
Lemma give_sub l h : subl (give l h) h.
Proof. induction h as [|x r IH]; cbn; [constructor|]. destruct (eqb (fst x) l); constructor; auto. apply subl_refl. Qed.
Lemma subl_give l a b : subl a b -> subl (give l a) (give l b).
Proof.
  induction 1 as [b|x a b H IH|x a b H IH]; cbn.
  - constructor.
  - destruct (eqb (fst x) l); [exact H|constructor; exact IH].
  - destruct (eqb (fst x) l); [|apply subl_more; exact IH].
    eapply subl_trans; [exact H|apply give_sub].
Qed.

(** ** What a thread will still access stays in the table of its role *)
Definition tab := list (fld * bool * list (lk * bool)).
Inductive ok (T : tab) : list (lk * bool) -> list item -> Prop :=
| ok_nil h : ok T h []
| ok_do h L s r : incl L h -> incl (accs L s) T -> ok T h r -> ok T h (Do s :: r)
| ok_give h l r : ok T (give l h) r -> ok T h (Give l :: r).

Lemma ok_mono T h r : ok T h r -> forall h', subl h h' -> ok T h' r.
Proof.
  induction 1 as [h|h L s r Q A K IH|h l r K IH]; intros h' S; [constructor| |].
  - apply ok_do with L; auto. intros x Hx. apply (subl_incl _ _ S). auto.
  - apply ok_give. apply IH. now apply subl_give.
Qed.

Definition table_at (sys : list role) (r : nat) : tab := match nth_error sys r with Some ro => table ro | None => [] end.
Definition fine (sys : list role) (t : thr) : Prop := ok (table_at sys (th_role t)) (th_held t) (th_todo t).

Lemma call_in c l s : call_of c l = Some s -> exists d, In (d, s) l.
Proof.
  induction l as [|[d x] r IH]; cbn; [discriminate|]. destruct (eqb d c).
  - intros [= ->]. exists d. now left.
  - intros H. destruct (IH H) as [e He]. exists e. now right.
Qed.

Lemma stept_fine sys ts t c t' : fine sys t -> stept sys ts t c = Some t' -> fine sys t'.
Proof.
  unfold fine, stept. destruct t as [ro h td]; cbn [th_role th_held th_todo]. intros K.
  destruct td as [|it r].
  { destruct c as [n| |]; try discriminate. destruct (nth_error sys ro) as [x|] eqn:E; [|discriminate].
    destruct (call_of n (ro_calls x)) as [s|] eqn:F; [|discriminate]. cbn. intros [= <-]. cbn.
    apply ok_do with []; [intros y []| |constructor].
    unfold table_at. rewrite E. intros y Hy. destruct (call_in _ _ _ F) as [d Hd].
    apply in_flat_map. exists (d, s). split; [exact Hd|exact Hy]. }
  destruct it as [s|l].
  - inversion K as [|? L ? ? Q A K'|]; subst.
    destruct s as [|f|f|a b|a b|a|l sh a|l a]; destruct c; try discriminate; cbn [accs] in A;
      try (intros [= <-]; cbn; exact K').
    + intros [= <-]; cbn. apply ok_do with L; [exact Q|intros y Hy; apply A, in_or_app; now left|].
      apply ok_do with L; [exact Q|intros y Hy; apply A, in_or_app; now right|exact K'].
    + intros [= <-]; cbn. apply ok_do with L; [exact Q|intros y Hy; apply A, in_or_app; now left|exact K'].
    + intros [= <-]; cbn. apply ok_do with L; [exact Q|intros y Hy; apply A, in_or_app; now right|exact K'].
    + intros [= <-]; cbn. apply ok_do with L; [exact Q|exact A|]. apply ok_do with L; [exact Q|exact A|exact K'].
    + destruct (free l sh ts); [|discriminate]. intros [= <-]; cbn.
      apply ok_do with ((l, sh) :: L); [intros y [<-|Hy]; [now left|right; auto]|exact A|].
      apply ok_give. cbn. rewrite eqb_refl. exact K'.
    + destruct (free l false ts); [|discriminate]. intros [= <-]; cbn.
      apply ok_do with ((l, false) :: L); [intros y [<-|Hy]; [now left|right; auto]|exact A|].
      eapply ok_mono; [exact K'|]. apply subl_more, subl_refl.
  - inversion K as [| |? ? ? K']; subst. destruct c; try discriminate. intros [= <-]; cbn. exact K'.
Qed.

(** ** Locks exclude each other *)
Definition excl (a b : list (lk * bool)) : Prop := forall l x y, In (l, x) a -> In (l, y) b -> x = true /\ y = true.
Definition nohold (l : lk) (sh : bool) (h : list (lk * bool)) : Prop := forall x, In (l, x) h -> sh = true /\ x = true.

Lemma free_spec l sh ts : free l sh ts = true -> forall t, In t ts -> nohold l sh (th_held t).
Proof.
  unfold free. rewrite forallb_forall. intros H t Ht x Hx. specialize (H t Ht). rewrite forallb_forall in H.
  specialize (H _ Hx). unfold clash in H. cbn in H. rewrite eqb_refl in H. cbn in H. destruct sh, x; auto; discriminate.
Qed.

Lemma stept_excl sys ts t c t' h : stept sys ts t c = Some t' -> (forall l sh, free l sh ts = true -> nohold l sh h) -> excl (th_held t) h -> excl (th_held t') h.
Proof.
  unfold stept. destruct t as [ro hh td]; cbn [th_role th_held th_todo]. intros K F E.
  assert (G : forall l, excl (give l hh) h).
  { intros l0 l x y Hx Hy. eapply E; [|exact Hy]. apply (subl_incl _ _ (give_sub l0 hh)). exact Hx. }
  assert (T : forall l sh, free l sh ts = true -> excl ((l, sh) :: hh) h).
  { intros l sh Q k x y [[= <- <-]|Hx] Hy; [|eapply E; eassumption]. apply (F _ _ Q) in Hy. tauto. }
  destruct td as [|[[|f|f|a b|a b|a|l sh a|l a]|l] r]; destruct c; try discriminate; try (injection K as <-; cbn; auto).
  - destruct (nth_error sys ro) as [x|]; [|discriminate]. destruct (call_of _ _); [|discriminate]. injection K as <-. exact E.
  - destruct (free l sh ts) eqn:Q; [|discriminate]. injection K as <-. cbn. auto.
  - destruct (free l false ts) eqn:Q; [|discriminate]. injection K as <-. cbn. auto.
Qed.

Lemma stept_role sys ts t c t' : stept sys ts t c = Some t' -> th_role t' = th_role t.
Proof.
  unfold stept. destruct t as [ro hh td]; cbn [th_role th_held th_todo].
  destruct td as [|[[|f|f|a b|a b|a|l sh a|l a]|l] r]; destruct c; try discriminate; try (intros [= <-]; reflexivity).
  - destruct (nth_error sys ro) as [x|]; [|discriminate]. destruct (call_of _ _); [|discriminate]. intros [= <-]. reflexivity.
  - destruct (free l sh ts); [|discriminate]. intros [= <-]. reflexivity.
  - destruct (free l false ts); [|discriminate]. intros [= <-]. reflexivity.
Qed.

(** ** All threads *)
Lemma nth_setn {A} (l : list A) n x m : nth_error (setn n x l) m = if Nat.eqb m n then (if Nat.ltb n (length l) then Some x else None) else nth_error l m.
Proof.
  revert n m. induction l as [|y r IH]; intros [|n] [|m]; cbn; auto.
  - destruct (Nat.eqb m n); reflexivity.
  - rewrite IH. reflexivity.
Qed.

Definition inv (sys : list role) (rs : list nat) (ts : list thr) : Prop :=
  map th_role ts = rs /\ (forall t, In t ts -> fine sys t) /\
  (forall i j a b, i <> j -> nth_error ts i = Some a -> nth_error ts j = Some b -> excl (th_held a) (th_held b)).

Lemma excl_sym a b : excl a b -> excl b a.
Proof. intros H l x y Hx Hy. destruct (H l y x Hy Hx); auto. Qed.

Lemma map_setn {A B} (g : A -> B) n x l y : nth_error l n = Some y -> g x = g y -> map g (setn n x l) = map g l.
Proof.
  revert n. induction l as [|z r IH]; intros [|n] H Q; cbn in *; try discriminate.
  - injection H as ->. now rewrite Q.
  - f_equal. now apply IH.
Qed.

Lemma in_setn {A} n (x y : A) l : In y (setn n x l) -> y = x \/ In y l.
Proof.
  revert n. induction l as [|z r IH]; intros [|n]; cbn; auto.
  - intros [->|H]; auto.
  - intros [->|H]; auto. destruct (IH _ H); auto.
Qed.

Lemma step_inv sys rs ts i c ts' : inv sys rs ts -> step sys ts i c = Some ts' -> inv sys rs ts'.
Proof.
  unfold step. intros (R & F & E) H. destruct (nth_error ts i) as [t|] eqn:Q; [|discriminate].
  destruct (stept sys ts t c) as [t'|] eqn:K; [|discriminate]. injection H as <-.
  assert (It : In t ts) by (eapply nth_error_In; exact Q).
  split; [|split].
  - rewrite (map_setn _ _ _ _ _ Q (stept_role _ _ _ _ _ K)). exact R.
  - intros u Hu. apply in_setn in Hu. destruct Hu as [->|Hu]; auto. eapply stept_fine; [|exact K]. auto.
  - assert (M : forall j b, j <> i -> nth_error ts j = Some b -> excl (th_held t') (th_held b)).
    { intros j b N Hb. eapply stept_excl; [exact K| |].
      - intros l sh P. apply (free_spec _ _ _ P). eapply nth_error_In; exact Hb.
      - eapply E; [|exact Q|exact Hb]. auto. }
    intros j k a b N Ha Hb. rewrite nth_setn in Ha, Hb.
    destruct (Nat.eqb_spec j i) as [->|Nj]; destruct (Nat.eqb_spec k i) as [->|Nk]; try congruence.
    + destruct (Nat.ltb i (length ts)); [|discriminate]. injection Ha as <-. eauto.
    + destruct (Nat.ltb i (length ts)); [|discriminate]. injection Hb as <-. apply excl_sym. eauto.
    + eauto.
Qed.

Lemma runs_inv sys rs sched : forall ts ts', inv sys rs ts -> runs sys ts sched = Some ts' -> inv sys rs ts'.
Proof.
  induction sched as [|[i c] r IH]; cbn; intros ts ts' V H; [now injection H as <-|].
  destruct (step sys ts i c) as [t1|] eqn:Q; [|discriminate]. eapply IH; [|exact H]. eapply step_inv; eassumption.
Qed.

Lemma start_inv sys rs : inv sys rs (map idle rs).
Proof.
  split; [|split].
  - rewrite map_map. cbn. apply map_id.
  - intros t H. apply in_map_iff in H. destruct H as (r & <- & _). constructor.
  - intros i j a b _ Ha Hb. rewrite nth_error_map in Ha, Hb.
    destruct (nth_error rs i); [|discriminate]. injection Ha as <-. intros l x y [].
Qed.

(** ** The checker *)
Lemma safe_pair_spec a b : safe_pair a b = true -> forall x y, In x a -> In y b -> fst x || fst y = true -> apart (snd x) (snd y) = true.
Proof.
  unfold safe_pair. rewrite forallb_forall. intros H x y Hx Hy W. specialize (H x Hx). rewrite forallb_forall in H.
  specialize (H y Hy). rewrite W in H. exact H.
Qed.

Lemma apart_sym a b : apart a b = true -> apart b a = true.
Proof.
  unfold apart. rewrite !existsb_exists. intros (x & Hx & H). rewrite existsb_exists in H. destruct H as (y & Hy & H).
  exists y. split; auto. rewrite existsb_exists. exists x. split; auto.
  apply andb_true_iff in H. destruct H as [P Q]. apply eqb_true in P. rewrite P, eqb_refl. cbn.
  rewrite andb_comm. exact Q.
Qed.

Lemma apart_excl a b : apart a b = true -> excl a b -> False.
Proof.
  unfold apart. rewrite existsb_exists. intros (x & Hx & H) E. rewrite existsb_exists in H. destruct H as (y & Hy & H).
  apply andb_true_iff in H. destruct H as [P Q]. apply eqb_true in P. destruct x as [l x], y as [k y]. cbn in *. subst k.
  destruct (E l x y Hx Hy) as [-> ->]. discriminate.
Qed.

Lemma safe_with_spec f a rs : safe_with f a rs = true -> forall r, In r rs -> safe_pair a (of_field f (table r)) = true.
Proof.
  induction rs as [|x rest IH]; cbn; intros H r [].
  - subst. apply andb_true_iff in H. tauto.
  - apply andb_true_iff in H. apply IH; tauto.
Qed.

Definition own (f : fld) (r : role) := of_field f (table r).
Lemma guarded_spec f sys : guarded f sys = true -> forall i j a b, nth_error sys i = Some a -> nth_error sys j = Some b ->
  (i <> j \/ ro_many a = true) -> forall x y, In x (own f a) -> In y (own f b) -> fst x || fst y = true -> apart (snd x) (snd y) = true.
Proof.
  induction sys as [|r rest IH]; cbn [guarded]; intros H i j a b Ha Hb N x y Hx Hy W.
  - destruct i; discriminate.
  - apply andb_true_iff in H. destruct H as [H H3]. apply andb_true_iff in H. destruct H as [H1 H2].
    destruct i as [|i], j as [|j]; cbn in Ha, Hb.
    + injection Ha as <-. injection Hb as <-. destruct N as [N|N]; [congruence|]. rewrite N in H1. cbn in H1.
      eapply safe_pair_spec; [exact H1| | |]; eassumption.
    + injection Ha as <-. eapply safe_pair_spec; [eapply safe_with_spec; [exact H2|eapply nth_error_In; exact Hb]| | |]; eassumption.
    + injection Hb as <-. apply apart_sym.
      eapply safe_pair_spec; [eapply safe_with_spec; [exact H2|eapply nth_error_In; exact Ha]| | |]; try eassumption.
      rewrite orb_comm. exact W.
    + eapply (IH H3 i j); try eassumption. destruct N; auto.
Qed.

Lemma access_in sys t f w : fine sys t -> access t = Some (f, w) -> exists ro L, nth_error sys (th_role t) = Some ro /\ In (w, L) (own f ro) /\ incl L (th_held t).
Proof.
  unfold fine, access. intros K H. destruct (th_todo t) as [|it r] eqn:Q; [discriminate|].
  assert (P : exists L, In (f, w, L) (table_at sys (th_role t)) /\ incl L (th_held t)).
  { destruct it as [s|l]; [|discriminate]. inversion K as [|? L ? ? I A K'|]; subst.
    exists L. split; [|exact I]. apply A. destruct s; try discriminate; injection H as <- <-; cbn; auto. }
  destruct P as (L & P & I). unfold table_at in P. destruct (nth_error sys (th_role t)) as [ro|]; [|destruct P].
  exists ro, L. split; [reflexivity|]. split; [|exact I].
  unfold own, of_field. apply in_map_iff. exists (f, w, L). split; [reflexivity|]. apply filter_In. split; [exact P|]. cbn. apply eqb_refl.
Qed.

Lemma count_two (rs : list nat) : forall i j r, i <> j -> nth_error rs i = Some r -> nth_error rs j = Some r -> 2 <= count_occ Nat.eq_dec rs r.
Proof.
  assert (ONE : forall rs i r, nth_error rs i = Some r -> 1 <= count_occ Nat.eq_dec rs r).
  { intros l i r H. apply nth_error_In in H. apply (count_occ_In Nat.eq_dec) in H. lia. }
  induction rs as [|x t IH]; intros [|i] [|j] r N Hi Hj; cbn in *; try discriminate; try congruence.
  - injection Hi as ->. destruct (Nat.eq_dec r r); [|congruence]. apply ONE in Hj. lia.
  - injection Hj as ->. destruct (Nat.eq_dec r r); [|congruence]. apply ONE in Hi. lia.
  - assert (N' : i <> j) by congruence. specialize (IH i j r N' Hi Hj). destruct (Nat.eq_dec x r); lia.
Qed.

Theorem no_race sys rs ts f : guarded f sys = true -> reaches sys rs ts -> ~ race ts f.
Proof.
  intros G (FT & sched & R) (_ & i & j & a & b & wa & wb & N & Ha & Hb & Aa & Ab & W).
  destruct (runs_inv _ _ _ _ _ (start_inv sys rs) R) as (RO & F & E).
  destruct (access_in sys a f wa (F _ (nth_error_In _ _ Ha)) Aa) as (ra & La & Na & Ia & Ca).
  destruct (access_in sys b f wb (F _ (nth_error_In _ _ Hb)) Ab) as (rb & Lb & Nb & Ib & Cb).
  assert (M : th_role a <> th_role b \/ ro_many ra = true).
  { destruct (Nat.eq_dec (th_role a) (th_role b)) as [Q|Q]; [|now left]. right.
    destruct (ro_many ra) eqn:V; [reflexivity|exfalso].
    assert (P : 2 <= count_occ Nat.eq_dec rs (th_role a)).
    { apply count_two with i j; [exact N| |].
      - rewrite <- RO, nth_error_map, Ha. reflexivity.
      - rewrite <- RO, nth_error_map, Hb. cbn. now rewrite Q. }
    specialize (FT _ _ Na V). lia. }
  pose proof (guarded_spec f sys G _ _ _ _ Na Nb M _ _ Ia Ib W) as P.
  apply (apart_excl _ _ P). intros l x y Hx Hy. eapply (E i j a b N Ha Hb); [apply Ca, Hx|apply Cb, Hy].
Qed.

Lemma in_fields f : In f fields.
Proof. destruct f; try destruct l; try destruct e; unfold fields; cbn [flat_map app lays ents]; repeat (try (left; reflexivity); right); fail. Qed.

Definition fst3 (x : fld * cname * cname) : fld := fst (fst x).
Lemma ecal_check : forallb (fun f => atomic f || guarded f ecal || existsb (eqb f) (map fst3 races)) fields = true.
Proof. vm_compute. reflexivity. Qed.

Theorem only_races rs ts f : reaches ecal rs ts -> race ts f -> exists c d, In (f, c, d) races.
Proof.
  intros R V. pose proof (proj1 (forallb_forall _ _) ecal_check f (in_fields f)) as H.
  apply orb_true_iff in H. destruct H as [H|H].
  - apply orb_true_iff in H. destruct H as [H|H].
    + destruct V as [V _]. congruence.
    + exfalso. exact (no_race _ _ _ _ H R V).
  - apply existsb_exists in H. destruct H as (g & Hg & Q). apply eqb_true in Q. subst g.
    apply in_map_iff in Hg. destruct Hg as ([[g c] d] & E & I). cbn in E. subst g. eauto.
Qed.

Lemma rest_check : forallb (fun f => atomic f || guarded f (without settings ecal) || existsb (eqb f) core_races) fields = true.
Proof. vm_compute. reflexivity. Qed.

Theorem only_core rs ts f : reaches (without settings ecal) rs ts -> race ts f -> In f core_races.
Proof.
  intros R V. pose proof (proj1 (forallb_forall _ _) rest_check f (in_fields f)) as H.
  apply orb_true_iff in H. destruct H as [H|H].
  - apply orb_true_iff in H. destruct H as [H|H].
    + destruct V as [V _]. congruence.
    + exfalso. exact (no_race _ _ _ _ H R V).
  - apply existsb_exists in H. destruct H as (g & Hg & Q). apply eqb_true in Q. now subst g.
Qed.

(** ** Collisions *)
Lemma no_begin p : existsb is_begin p = false -> forall n, ~ In (Begin n) p.
Proof. intros H n I. assert (existsb is_begin p = true); [|congruence]. apply existsb_exists. exists (Begin n). auto. Qed.

Lemma tried_collide sys f r1 c w1 r2 d w2 : tried sys f r1 c w1 r2 d w2 = true -> collide sys f c d.
Proof.
  unfold tried. destruct (nth_error sys r1) as [ro1|] eqn:E1; [|discriminate]. destruct (nth_error sys r2) as [ro2|] eqn:E2; [|discriminate].
  intros H. apply andb_true_iff in H. destruct H as [H K]. apply andb_true_iff in H. destruct H as [H _].
  apply andb_true_iff in H. destruct H as [M A]. apply negb_true_iff in A.
  destruct (call_of c (ro_calls ro1)) as [s1|]; [|discriminate]. destruct (call_of d (ro_calls ro2)) as [s2|]; [|discriminate].
  destruct (way f w1 s1) as [p|]; [|discriminate]. destruct (way f w2 s2) as [q|]; [|discriminate].
  apply andb_true_iff in K. destruct K as [K R]. apply andb_true_iff in K. destruct K as [P Q].
  apply negb_true_iff in P, Q.
  destruct (runs sys [idle r1; idle r2] _) as [ts|] eqn:RN; [|discriminate].
  exists r1, r2, p, q, ts. split; [|split; [now apply no_begin|split; [now apply no_begin|split; [exact RN|]]]].
  - intros r ro Hr V. cbn. destruct (Nat.eq_dec r1 r) as [X1|N1]; destruct (Nat.eq_dec r2 r) as [X2|N2]; try lia.
    subst. rewrite Hr in E1. injection E1 as <-. rewrite Nat.eqb_refl, V in M. discriminate.
  - split; [exact A|]. destruct ts as [|t1 [|t2 [|]]]; try discriminate.
    destruct (access t1) as [[f1 v1]|] eqn:A1; [|discriminate]. destruct (access t2) as [[f2 v2]|] eqn:A2; [|discriminate].
    apply andb_true_iff in R. destruct R as [R W]. apply andb_true_iff in R. destruct R as [R1 R2].
    apply eqb_true in R1, R2. subst. exists 0, 1, t1, t2, v1, v2. cbn. auto 10.
Qed.

Lemma pair_collide sys f c d : found_pair sys (f, c, d) = true -> collide sys f c d.
Proof.
  unfold found_pair. rewrite existsb_exists. intros (r1 & _ & H). rewrite existsb_exists in H. destruct H as (r2 & _ & H).
  rewrite existsb_exists in H. destruct H as (w1 & _ & H). rewrite existsb_exists in H. destruct H as (w2 & _ & H).
  eapply tried_collide; exact H.
Qed.

Lemma list_collide sys l : forallb (found_pair sys) l = true -> forall f c d, In (f, c, d) l -> collide sys f c d.
Proof. rewrite forallb_forall. intros H f c d I. apply pair_collide. exact (H _ I). Qed.

Lemma pub_collide : forall f c d, In (f, c, d) pub_races -> collide ecal f c d.
Proof. apply list_collide. vm_compute. reflexivity. Qed.
Lemma sub_collide : forall f c d, In (f, c, d) sub_races -> collide ecal f c d.
Proof. apply list_collide. vm_compute. reflexivity. Qed.
Lemma layer_collide : forall f c d, In (f, c, d) layer_races -> collide ecal f c d.
Proof. apply list_collide. vm_compute. reflexivity. Qed.
Lemma service_collide : forall f c d, In (f, c, d) service_races -> collide ecal f c d.
Proof. apply list_collide. vm_compute. reflexivity. Qed.
Lemma global_collide : forall f c d, In (f, c, d) global_races -> collide ecal f c d.
Proof. apply list_collide. vm_compute. reflexivity. Qed.

Lemma core_check : forallb (fun f => existsb (fun x => eqb (fst3 x) f && found_pair (without settings ecal) x) races) core_races = true.
Proof. vm_compute. reflexivity. Qed.
Lemma core_collide : forall f, In f core_races -> exists c d, collide (without settings ecal) f c d.
Proof.
  intros f I. pose proof (proj1 (forallb_forall _ _) core_check f I) as H. apply existsb_exists in H.
  destruct H as ([[g c] d] & _ & H). apply andb_true_iff in H. destruct H as [E H]. apply eqb_true in E. cbn in E. subst g.
  exists c, d. now apply pair_collide.
Qed.

(** ** One lock for every variable: what protects the data that are protected *)
Theorem excluded sys rs ts i j a b l x y : reaches sys rs ts -> i <> j -> nth_error ts i = Some a -> nth_error ts j = Some b ->
  In (l, x) (th_held a) -> In (l, y) (th_held b) -> x = true /\ y = true.
Proof.
  intros (_ & sched & R) N Ha Hb Hx Hy. destruct (runs_inv _ _ _ _ _ (start_inv sys rs) R) as (_ & _ & E).
  eapply (E i j); eassumption.
Qed.

Lemma fits_dec sys rs : fitsb sys rs = true -> fits sys rs.
Proof.
  unfold fitsb. rewrite forallb_forall. intros H r ro Q M.
  assert (I : In r (seq 0 (length sys))).
  { apply in_seq. split; [lia|]. cbn. apply nth_error_Some. congruence. }
  specialize (H r I). rewrite Q, M in H. cbn [orb] in H. apply Nat.leb_le in H. exact H.
Qed.

Lemma x_reaches : reaches ecal x_roles x_after.
Proof. split; [apply fits_dec; vm_compute; reflexivity|]. exists x_busy. vm_compute. reflexivity. Qed.

(** ** What protects what *)
Definition every (sys : list role) (f : fld) (P : nat -> bool -> list (lk * bool) -> bool) : bool :=
  forallb (fun r => match nth_error sys r with
                    | Some ro => forallb (fun x => P r (fst x) (snd x)) (own f ro)
                    | None => true end) (seq 0 (length sys)).

Lemma every_spec sys f P rs ts t w : every sys f P = true -> reaches sys rs ts -> In t ts -> access t = Some (f, w) ->
  exists L, P (th_role t) w L = true /\ incl L (th_held t).
Proof.
  intros E (FT & sched & R) I A. destruct (runs_inv _ _ _ _ _ (start_inv sys rs) R) as (_ & F & _).
  destruct (access_in sys t f w (F _ I) A) as (ro & L & N & H & C). exists L. split; [|exact C].
  unfold every in E. rewrite forallb_forall in E.
  assert (J : In (th_role t) (seq 0 (length sys))).
  { apply in_seq. split; [lia|]. cbn. apply nth_error_Some. congruence. }
  specialize (E _ J). rewrite N in E. rewrite forallb_forall in E. exact (E _ H).
Qed.

Definition has (l : lk) (sh : bool) (L : list (lk * bool)) : bool := existsb (fun x => eqb (fst x) l && Bool.eqb (snd x) sh) L.
Lemma has_in l sh L : has l sh L = true -> In (l, sh) L.
Proof.
  unfold has. rewrite existsb_exists. intros ([k b] & I & H). apply andb_true_iff in H. destruct H as [P Q].
  apply eqb_true in P. apply Bool.eqb_prop in Q. cbn in *. now subst.
Qed.

Lemma locked_check : forallb (fun x => every ecal (fst x) (fun _ _ L => has (snd x) false L)) locked_by = true.
Proof. vm_compute. reflexivity. Qed.
Theorem locked rs ts t f l w : In (f, l) locked_by -> reaches ecal rs ts -> In t ts -> access t = Some (f, w) -> holds (th_held t) l.
Proof.
  intros I R H A. pose proof (proj1 (forallb_forall _ _) locked_check _ I) as E. cbn [fst snd] in E.
  destruct (every_spec _ _ _ _ _ _ _ E R H A) as (L & P & C). apply C. now apply has_in.
Qed.

Lemma shared_check : forallb (fun x => every ecal (fst x) (fun _ w L => has (snd x) false L || negb w && has (snd x) true L)) read_shared = true.
Proof. vm_compute. reflexivity. Qed.
Theorem shared rs ts t f l w : In (f, l) read_shared -> reaches ecal rs ts -> In t ts -> access t = Some (f, w) ->
  if w then holds (th_held t) l else holds_some (th_held t) l.
Proof.
  intros I R H A. pose proof (proj1 (forallb_forall _ _) shared_check _ I) as E. cbn [fst snd] in E.
  destruct (every_spec _ _ _ _ _ _ _ E R H A) as (L & P & C). apply orb_true_iff in P. destruct P as [P|P].
  - apply has_in in P. destruct w; [now apply C|]. exists false. now apply C.
  - apply andb_true_iff in P. destruct P as [W P]. apply negb_true_iff in W. subst w. exists true. apply C. now apply has_in.
Qed.

Lemma used_check : forallb (fun x => every ecal (fst x) (fun r _ _ => Nat.eqb r (snd x))) used_by = true.
Proof. vm_compute. reflexivity. Qed.
Theorem used rs ts t f r w : In (f, r) used_by -> reaches ecal rs ts -> In t ts -> access t = Some (f, w) -> th_role t = r.
Proof.
  intros I R H A. pose proof (proj1 (forallb_forall _ _) used_check _ I) as E. cbn [fst snd] in E.
  destruct (every_spec _ _ _ _ _ _ _ E R H A) as (L & P & _). now apply Nat.eqb_eq in P.
Qed.

Lemma constant_check : forallb (fun f => every ecal f (fun _ w _ => negb w)) constant = true.
Proof. vm_compute. reflexivity. Qed.
Theorem never_written rs ts t f w : In f constant -> reaches ecal rs ts -> In t ts -> access t = Some (f, w) -> w = false.
Proof.
  intros I R H A. pose proof (proj1 (forallb_forall _ _) constant_check _ I) as E. cbn beta in E.
  destruct (every_spec _ _ _ _ _ _ _ E R H A) as (L & P & _). now apply negb_true_iff in P.
Qed.

Lemma classes_check : forallb (fun f => atomic f || existsb (eqb f) (map fst locked_by ++ map fst read_shared ++ map fst used_by ++ constant ++ at_end ++ map fst3 races)) fields = true.
Proof. vm_compute. reflexivity. Qed.
Theorem classes f : atomic f = true \/ (exists l, In (f, l) locked_by) \/ (exists l, In (f, l) read_shared) \/ (exists r, In (f, r) used_by) \/
  In f constant \/ In f at_end \/ exists c d, In (f, c, d) races.
Proof.
  pose proof (proj1 (forallb_forall _ _) classes_check f (in_fields f)) as H. apply orb_true_iff in H. destruct H as [H|H]; [now left|right].
  apply existsb_exists in H. destruct H as (g & I & E). apply eqb_true in E. subst g. rewrite !in_app_iff in I.
  destruct I as [I|[I|[I|[I|[I|I]]]]]; [left|right; left|do 2 right; left|do 3 right; left|do 4 right; left|do 5 right]; try exact I;
    apply in_map_iff in I; try (destruct I as ([g y] & E & I); cbn in E; subst g; eauto).
  destruct I as ([[g c] d] & E & I). cbn in E. subst g. eauto.
Qed.
Lemma at_end_check : forallb (fun f => guarded f ecal) at_end = true.
Proof. vm_compute. reflexivity. Qed.
Theorem at_end_safe rs ts f : In f at_end -> reaches ecal rs ts -> ~ race ts f.
Proof. intros I R. apply no_race with ecal rs; [|exact R]. exact (proj1 (forallb_forall _ _) at_end_check f I). Qed.
