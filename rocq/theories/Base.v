(** Common vocabulary: decidable equality, association lists (the model of
    std::map / std::unordered_map) and small list facts.  Models no code. *)
From Coq Require Export String Ascii.
From Coq Require Export Arith ZArith NArith Bool List Lia.
From Coq Require Export ZifyBool ZifyNat ZifyN.
Export ListNotations.
Ltac Zify.zify_post_hook ::= Z.div_mod_to_equations.

Class EqDec (A : Type) := eq_dec : forall x y : A, {x = y} + {x <> y}.
#[export] Instance EqDec_Z : EqDec Z := Z.eq_dec.
#[export] Instance EqDec_N : EqDec N := N.eq_dec.
#[export] Instance EqDec_nat : EqDec nat := Nat.eq_dec.
#[export] Instance EqDec_bool : EqDec bool := Bool.bool_dec.
#[export] Instance EqDec_string : EqDec string := String.string_dec.
#[export] Instance EqDec_ascii : EqDec ascii := Ascii.ascii_dec.
#[export] Instance EqDec_unit : EqDec unit.
Proof. intros [] []; left; reflexivity. Defined.
#[export] Instance EqDec_list {A} `{EqDec A} : EqDec (list A) := list_eq_dec eq_dec.
#[export] Instance EqDec_prod {A B} `{EqDec A} `{EqDec B} : EqDec (A * B).
Proof.
  intros [a b] [c d]; destruct (eq_dec a c) as [->|Hn]; [destruct (eq_dec b d) as [->|Hn]|].
  - left; reflexivity.
  - right; intros E; inversion E; contradiction.
  - right; intros E; inversion E; contradiction.
Defined.
#[export] Instance EqDec_option {A} `{EqDec A} : EqDec (option A).
Proof.
  intros [a|] [b|].
  - destruct (eq_dec a b) as [->|Hn]; [left; reflexivity|right; congruence].
  - right; discriminate.
  - right; discriminate.
  - left; reflexivity.
Defined.

Definition eqb {A} `{EqDec A} (x y : A) : bool := if eq_dec x y then true else false.

Lemma eqb_eq {A} `{EqDec A} (x y : A) : eqb x y = true <-> x = y.
Proof. unfold eqb; destruct (eq_dec x y); split; intros; congruence. Qed.
Lemma eqb_neq {A} `{EqDec A} (x y : A) : eqb x y = false <-> x <> y.
Proof. unfold eqb; destruct (eq_dec x y); split; intros; congruence. Qed.
Lemma eqb_true {A} `{EqDec A} (x y : A) : eqb x y = true -> x = y.
Proof. apply eqb_eq. Qed.
Lemma eqb_false {A} `{EqDec A} (x y : A) : eqb x y = false -> x <> y.
Proof. apply eqb_neq. Qed.
Lemma neq_eqb {A} `{EqDec A} (x y : A) : x <> y -> eqb x y = false.
Proof. apply eqb_neq. Qed.
Lemma eqb_refl {A} `{EqDec A} (x : A) : eqb x x = true.
Proof. apply eqb_eq; reflexivity. Qed.
Lemma eqb_sym {A} `{EqDec A} (x y : A) : eqb x y = eqb y x.
Proof. unfold eqb; destruct (eq_dec x y), (eq_dec y x); congruence. Qed.

(** ** Association lists *)
Section Assoc.
  Context {K V : Type} `{EqDec K}.

  Fixpoint aget (k : K) (m : list (K * V)) : option V :=
    match m with
    | [] => None
    | (k', v) :: m' => if eqb k k' then Some v else aget k m'
    end.

  Fixpoint aset (k : K) (v : V) (m : list (K * V)) : list (K * V) :=
    match m with
    | [] => [(k, v)]
    | (k', v') :: m' => if eqb k k' then (k, v) :: m' else (k', v') :: aset k v m'
    end.

  Definition adel (k : K) (m : list (K * V)) : list (K * V) :=
    filter (fun p => negb (eqb k (fst p))) m.

  Definition keys (m : list (K * V)) : list K := map fst m.

  Definition amem (k : K) (m : list (K * V)) : bool :=
    match aget k m with Some _ => true | None => false end.

  Lemma aget_aset_same k v m : aget k (aset k v m) = Some v.
  Proof.
    induction m as [|[k' v'] m IH]; cbn.
    - rewrite eqb_refl; reflexivity.
    - destruct (eqb k k') eqn:E; cbn; [rewrite eqb_refl|rewrite E]; auto.
  Qed.

  Lemma aget_aset_other k k' v m : k <> k' -> aget k (aset k' v m) = aget k m.
  Proof.
    intros Hne; induction m as [|[k2 v2] m IH]; cbn.
    - apply neq_eqb in Hne; rewrite Hne; reflexivity.
    - destruct (eqb k' k2) eqn:E; cbn.
      + apply eqb_true in E; subst k2. apply neq_eqb in Hne; rewrite Hne; reflexivity.
      + destruct (eqb k k2); auto.
  Qed.

  Lemma aget_aset k k' v m :
    aget k (aset k' v m) = if eqb k k' then Some v else aget k m.
  Proof.
    destruct (eqb k k') eqn:E.
    - apply eqb_true in E; subst; apply aget_aset_same.
    - apply eqb_false in E; apply aget_aset_other; assumption.
  Qed.

  Lemma aget_adel k k' m :
    aget k (adel k' m) = if eqb k k' then None else aget k m.
  Proof.
    unfold adel; induction m as [|[k2 v2] m IH]; cbn.
    - destruct (eqb k k'); reflexivity.
    - destruct (eqb k' k2) eqn:E; cbn.
      + apply eqb_true in E; subst k2. rewrite IH. destruct (eqb k k'); reflexivity.
      + rewrite IH. destruct (eqb k k2) eqn:E2; [|reflexivity].
        apply eqb_true in E2; subst k2. rewrite eqb_sym, E. reflexivity.
  Qed.

  Lemma aget_in k v m : aget k m = Some v -> In (k, v) m.
  Proof.
    induction m as [|[k' v'] m IH]; cbn; [discriminate|].
    destruct (eqb k k') eqn:E; intros Hv.
    - apply eqb_true in E; left; congruence.
    - right; auto.
  Qed.

  Lemma aget_in_keys k v m : aget k m = Some v -> In k (keys m).
  Proof. intros Hg; apply aget_in in Hg; unfold keys; apply (in_map fst) in Hg; exact Hg. Qed.

  Lemma aget_none k m : aget k m = None <-> ~ In k (keys m).
  Proof.
    induction m as [|[k' v'] m IH]; cbn; [tauto|].
    destruct (eqb k k') eqn:E.
    - apply eqb_true in E; subst; split; [discriminate|intros Hn; exfalso; apply Hn; auto].
    - apply eqb_false in E. rewrite IH. split; intros Hn; [intros [Hx|Hx]; [congruence|tauto]|tauto].
  Qed.

  Lemma in_aget k v m : NoDup (keys m) -> In (k, v) m -> aget k m = Some v.
  Proof.
    induction m as [|[k' v'] m IH]; cbn; [tauto|].
    intros Hnd [Hh|Hin].
    - inversion Hh; subst; rewrite eqb_refl; reflexivity.
    - inversion Hnd as [|x l Hni Hnd']; subst.
      destruct (eqb k k') eqn:E; [|auto].
      apply eqb_true in E; subst k'. exfalso; apply Hni. apply (in_map fst) in Hin; exact Hin.
  Qed.

  Lemma keys_aset_incl k k' v m : In k (keys (aset k' v m)) <-> k = k' \/ In k (keys m).
  Proof.
    induction m as [|[k2 v2] m IH]; cbn.
    - split; [intros [Hx|[]]; auto|intros [Hx|[]]; auto].
    - destruct (eqb k' k2) eqn:E; cbn.
      + apply eqb_true in E; subst k2. split; [intros [Hx|Hx]; auto|intros [Hx|[Hx|Hx]]; auto].
      + rewrite IH. split; [intros [Hx|[Hx|Hx]]; auto|intros [Hx|[Hx|Hx]]; auto].
  Qed.

  Lemma nodup_aset k v m : NoDup (keys m) -> NoDup (keys (aset k v m)).
  Proof.
    induction m as [|[k2 v2] m IH]; cbn; intros Hnd.
    - constructor; [tauto|constructor].
    - inversion Hnd as [|x l Hni Hnd']; subst.
      destruct (eqb k k2) eqn:E; cbn.
      + apply eqb_true in E; subst k2. constructor; assumption.
      + constructor; [|apply IH; assumption].
        intros Hin. apply keys_aset_incl in Hin. apply eqb_false in E.
        destruct Hin as [Hx|Hx]; [congruence|tauto].
  Qed.

  Lemma keys_adel_in k k' m : In k (keys (adel k' m)) <-> k <> k' /\ In k (keys m).
  Proof.
    unfold keys, adel. rewrite in_map_iff. split.
    - intros [[k2 v2] [Heq Hin]]; cbn in Heq; subst k2.
      apply filter_In in Hin as [Hin Hb]; cbn in Hb. apply negb_true_iff in Hb; apply eqb_false in Hb.
      split; [congruence|]. apply (in_map fst) in Hin; exact Hin.
    - intros [Hne Hin]. apply in_map_iff in Hin as [[k2 v2] [Heq Hin]]; cbn in Heq; subst k2.
      exists (k, v2); split; [reflexivity|]. apply filter_In; split; [assumption|].
      cbn. apply negb_true_iff, neq_eqb. congruence.
  Qed.

  Lemma nodup_adel k m : NoDup (keys m) -> NoDup (keys (adel k m)).
  Proof.
    unfold keys, adel; induction m as [|[k2 v2] m IH]; cbn; intros Hnd; [constructor|].
    inversion Hnd as [|x l Hni Hnd']; subst.
    destruct (negb (eqb k k2)); cbn; [|auto].
    constructor; [|auto].
    intros Hin; apply Hni. apply in_map_iff in Hin as [p [Hp Hin]].
    apply filter_In in Hin as [Hin _]. rewrite <- Hp. apply in_map; exact Hin.
  Qed.

  Lemma amem_spec k m : amem k m = true <-> exists v, aget k m = Some v.
  Proof.
    unfold amem; destruct (aget k m) as [v|]; split.
    - intros _; exists v; reflexivity.
    - reflexivity.
    - discriminate.
    - intros [v Hv]; discriminate.
  Qed.
End Assoc.

#[global] Arguments Nat.ltb : simpl never.
#[global] Arguments Nat.modulo : simpl never.
#[global] Arguments Nat.div : simpl never.
#[global] Arguments Z.add : simpl never.
#[global] Arguments Z.sub : simpl never.
#[global] Arguments Z.mul : simpl never.
#[global] Arguments Z.ltb : simpl never.
#[global] Arguments Z.leb : simpl never.
#[global] Arguments Z.eqb : simpl never.
#[global] Arguments Z.div : simpl never.
#[global] Arguments Z.modulo : simpl never.
#[global] Arguments N.add : simpl never.
#[global] Arguments N.sub : simpl never.
#[global] Arguments N.mul : simpl never.
#[global] Arguments N.ltb : simpl never.
#[global] Arguments N.leb : simpl never.
#[global] Arguments N.eqb : simpl never.
#[global] Arguments N.div : simpl never.
#[global] Arguments N.modulo : simpl never.
#[global] Arguments keys : simpl never.
#[global] Arguments eqb : simpl never.
#[global] Arguments adel : simpl never.
#[global] Arguments amem : simpl never.

(** ** List facts *)
Lemma fold_left_inv {A B} (f : A -> B -> A) (P : A -> Prop) (l : list B) (a : A) :
  P a -> (forall a b, P a -> P (f a b)) -> P (fold_left f l a).
Proof. revert a; induction l as [|b l IH]; cbn; auto. Qed.

Lemma fold_left_snoc {A B} (f : A -> B -> A) l b a :
  fold_left f (l ++ [b]) a = f (fold_left f l a) b.
Proof. rewrite fold_left_app; reflexivity. Qed.

Lemma filter_all {A} (f : A -> bool) l : (forall x, In x l -> f x = true) -> filter f l = l.
Proof.
  induction l as [|a l IH]; cbn; intros Hf; [reflexivity|].
  rewrite (Hf a (or_introl eq_refl)). f_equal. apply IH; intros; apply Hf; right; assumption.
Qed.

Lemma filter_none {A} (f : A -> bool) l : (forall x, In x l -> f x = false) -> filter f l = [].
Proof.
  induction l as [|a l IH]; cbn; intros Hf; [reflexivity|].
  rewrite (Hf a (or_introl eq_refl)). apply IH; intros; apply Hf; right; assumption.
Qed.

Lemma nodup_filter {A} (f : A -> bool) l : NoDup l -> NoDup (filter f l).
Proof. apply NoDup_filter. Qed.

Lemma nodup_map_filter {A B} (g : A -> B) (f : A -> bool) l :
  NoDup (map g l) -> NoDup (map g (filter f l)).
Proof.
  induction l as [|a l IH]; cbn; intros Hnd; [constructor|].
  inversion Hnd as [|x l' Hni Hnd']; subst.
  destruct (f a); cbn; [|auto]. constructor; [|auto].
  intros Hin; apply Hni. apply in_map_iff in Hin as [y [Hy Hin]].
  apply filter_In in Hin as [Hin _]. rewrite <- Hy; apply in_map; exact Hin.
Qed.

Lemma nodup_app_r {A} (l1 l2 : list A) : NoDup (l1 ++ l2) -> NoDup l2.
Proof. induction l1 as [|a l1 IH]; cbn; intros Hnd; [assumption|]. inversion Hnd; auto. Qed.

Lemma nodup_app_l {A} (l1 l2 : list A) : NoDup (l1 ++ l2) -> NoDup l1.
Proof.
  induction l1 as [|a l1 IH]; cbn; intros Hnd; [constructor|]. inversion Hnd as [|x l Hni Hnd']; subst.
  constructor; [|auto]. intros Hin; apply Hni; apply in_app_iff; auto.
Qed.

Lemma nodup_snoc {A} (l : list A) x : NoDup l -> ~ In x l -> NoDup (l ++ [x]).
Proof.
  intros Hnd Hni. induction l as [|a l IH]; cbn.
  - constructor; [tauto|constructor].
  - inversion Hnd as [|y l' Hna Hnd']; subst. constructor.
    + rewrite in_app_iff; cbn. intros [Hx|[Hx|[]]]; [tauto|subst; apply Hni; left; reflexivity].
    + apply IH; [assumption|intros Hx; apply Hni; right; exact Hx].
Qed.

Lemma skipn_skipn {A} x y (l : list A) : skipn x (skipn y l) = skipn (x + y) l.
Proof.
  revert l; induction y as [|y IH]; intros l; [rewrite Nat.add_0_r; reflexivity|].
  rewrite Nat.add_succ_r. destruct l; [rewrite !skipn_nil; reflexivity|apply IH].
Qed.

Lemma filter_rev {A} (f : A -> bool) (l : list A) : filter f (rev l) = rev (filter f l).
Proof.
  induction l as [|a l IH]; cbn; [reflexivity|]. rewrite filter_app, IH. cbn.
  destruct (f a); cbn; [reflexivity|rewrite app_nil_r; reflexivity].
Qed.
