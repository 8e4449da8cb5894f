(** Lemmas about the monitoring. *)
From Verif Require Import Base Sample ExpMapModel ExpMapSpec ExpMapProofs DscModel DscSpec DscProofs DscBest SerModel MonModel MonSpec.
From Verif Require McModel.

(** ** Lists of patterns *)
Lemma is_delim_spec c : is_delim c = true <-> delim c.
Proof. unfold is_delim, delim. rewrite orb_true_iff, !Z.eqb_eq. reflexivity. Qed.
Lemma is_delim_false c : is_delim c = false <-> ~ delim c.
Proof. rewrite <- is_delim_spec. destruct (is_delim c); intuition congruence. Qed.

Definition free (p : text) := Forall (fun c => ~ delim c) p.
Lemma free_head a p x : free (a ++ p) -> In x a -> ~ delim x.
Proof. unfold free. rewrite Forall_forall. intros F H. apply F. apply in_app_iff; auto. Qed.

(** Two texts that start with a delimiter-free part followed by a delimiter. *)
Lemma free_prefix cur c r p b : free cur -> free p -> delim c ->
  (b = [] \/ exists d b', b = d :: b' /\ delim d) -> cur ++ c :: r = p ++ b -> p = cur.
Proof.
  revert p. induction cur as [|x cur IH]; intros p Fc Fp D B E; cbn in *.
  - destruct p as [|y p]; [reflexivity|]. injection E as <- _. inversion Fp; subst. contradiction.
  - destruct p as [|y p]; cbn in *.
    + destruct B as [->|(d & b' & -> & Dd)]; [discriminate|]. injection E as <- _. inversion Fc; subst. contradiction.
    + injection E as <- E. f_equal. inversion Fc; inversion Fp; subst. apply IH; auto.
Qed.
(** A text ending in a delimiter reaches beyond a delimiter-free part. *)
Lemma free_beyond cur c r a d x : free cur -> delim d -> cur ++ c :: r = (a ++ [d]) ++ x ->
  delim c -> exists a', a ++ [d] = cur ++ c :: a' /\ (a' = [] \/ exists a'' d', a' = a'' ++ [d'] /\ delim d') /\ r = a' ++ x.
Proof.
  revert a. induction cur as [|y cur IH]; intros a Fc D E Dc; cbn in *.
  - destruct a as [|z a]; cbn in *.
    + injection E as -> ->. exists []. auto.
    + injection E as -> ->. exists (a ++ [d]). split; [reflexivity|]. split; [right; eauto|reflexivity].
  - inversion Fc as [|? ? Hy Fc']; subst. destruct a as [|z a]; cbn in *.
    + injection E as -> _. contradiction.
    + injection E as -> E. destruct (IH a Fc' D E Dc) as (a' & E1 & A & E2). exists a'. rewrite E1. auto.
Qed.

Lemma pieces_spec s : forall cur p, free cur ->
  (In p (pieces cur s) <->
   exists a b, cur ++ s = a ++ p ++ b /\ p <> [] /\ free p /\
     (a = [] \/ exists a' c, a = a' ++ [c] /\ delim c) /\ (b = [] \/ exists c b', b = c :: b' /\ delim c)).
Proof.
  induction s as [|c r IH]; intros cur p F; cbn [pieces].
  - split.
    + destruct cur as [|x cur]; [intros []|]. intros [<-|[]]. exists [], []. rewrite !app_nil_r. cbn. repeat split; auto. discriminate.
    + rewrite app_nil_r. intros (a & b & E & N & Fp & A & B).
      assert (a = []) as ->.
      { destruct A as [|(a' & d & -> & D)]; [assumption|]. exfalso. rewrite E, <- app_assoc in F.
        unfold free in F. rewrite Forall_forall in F. apply (F d); [|assumption]. apply in_app_iff. right. left. reflexivity. }
      assert (b = []) as ->.
      { destruct B as [|(d & b' & -> & D)]; [assumption|]. exfalso. rewrite E in F.
        unfold free in F. rewrite Forall_forall in F. apply (F d); [|assumption]. apply in_app_iff. right. apply in_app_iff. right. left. reflexivity. }
      rewrite app_nil_r in E. cbn in E. subst p. destruct cur; [congruence|left; reflexivity].
  - destruct (is_delim c) eqn:Dc.
    + apply is_delim_spec in Dc. rewrite in_app_iff, (IH [] p) by constructor. cbn [app]. split.
      * intros [H|(a & b & -> & N & Fp & A & B)].
        -- destruct cur as [|x cur]; [destruct H|]. destruct H as [<-|[]].
           exists [], (c :: r). repeat split; auto; [discriminate|]. right. eauto.
        -- exists (cur ++ c :: a), b. repeat split; auto.
           ++ rewrite <- app_assoc. reflexivity.
           ++ right. destruct A as [->|(a' & d & -> & D)]; [eauto|].
              exists (cur ++ c :: a'), d. rewrite <- app_assoc. auto.
      * intros (a & b & E & N & Fp & A & B). destruct A as [->|(a' & d & -> & D)].
        -- left. cbn in E. rewrite (free_prefix cur c r p b F Fp Dc B E) in *. destruct cur; [congruence|left; reflexivity].
        -- right. destruct (free_beyond cur c r a' d (p ++ b) F D E Dc) as (a2 & E1 & A2 & E2).
           exists a2, b. auto.
    + apply is_delim_false in Dc. rewrite IH.
      * rewrite <- app_assoc. reflexivity.
      * apply Forall_app. auto.
Qed.
Lemma tokens_spec f p : In p (mon_tokens f) <-> listed_pattern f p.
Proof. unfold mon_tokens, listed_pattern. apply (pieces_spec f [] p). constructor. Qed.

Lemma icase_irr x : icase_ltb x x = false.
Proof. apply text_ltb_irr. Qed.
Lemma c_str_before s : before_zero s (c_str s).
Proof.
  induction s as [|c s (N & H)]; [split; [intros []|left; reflexivity]|]. cbn [c_str]. destruct (Z.eqb_spec c 0) as [->|Nc].
  - split; [intros []|]. right. exists s. reflexivity.
  - split; [intros [?|?]; [congruence|exact (N H0)]|]. destruct H as [H|(r & H)]; [left|right; exists r]; cbn; congruence.
Qed.
Lemma c_str_only s t : before_zero s t -> t = c_str s.
Proof.
  intros (N & [->|(r & ->)]); induction t as [|c t IH]; try reflexivity; cbn [app c_str];
    (destruct (Z.eqb_spec c 0) as [->|Nc]; [exfalso; apply N; left; reflexivity|]); f_equal; apply IH; intro; apply N; right; assumption.
Qed.
Lemma same_letters_iff x y : same_letters x y <-> map lower (c_str x) = map lower (c_str y).
Proof.
  split.
  - intros (p & q & P & Q & E). rewrite <- (c_str_only _ _ P), <- (c_str_only _ _ Q). exact E.
  - intros E. exists (c_str x), (c_str y). split; [apply c_str_before|]. split; [apply c_str_before|]. exact E.
Qed.
Lemma icase_none x y : icase_ltb x y = false -> icase_ltb y x = false -> same_letters x y.
Proof. intros A B. apply same_letters_iff. revert A B. apply text_ltb_none. Qed.

(** ** Patterns in force *)
Section Force.
  Variable set_of : mop -> option text.
  Hypothesis set_state_none : forall b, set_of (MState b) = None.
  Variable cfg : text.
  Notation cur := (current set_of cfg).
  Notation force := (in_force set_of cfg).

  Lemma current_snoc h p : cur (h ++ [p]) = match set_of (snd p) with Some f => f | None => cur h end.
  Proof. unfold current. rewrite fold_left_app. reflexivity. Qed.
  Lemma force_start p : force [] p <-> listed_pattern cfg p.
  Proof.
    split.
    - intros (h1 & h2 & E & _ & L & _). destruct h1; [exact L|discriminate].
    - intros L. exists [], []. repeat split; auto.
  Qed.
  Lemma force_off h t p : ~ force (h ++ [(t, MState false)]) p.
  Proof.
    intros (h1 & h2 & E & S & _ & N). destruct h2 as [|q h2 _] using rev_ind.
    - rewrite app_nil_r in E. subst h1. destruct S as [S|(h0 & t0 & S)].
      + destruct h; discriminate.
      + apply app_inj_tail in S as [_ S]. congruence.
    - rewrite app_assoc in E. apply app_inj_tail in E as [_ <-]. apply (N t). apply in_app_iff. right; left; reflexivity.
  Qed.
  Lemma force_on h t p : force (h ++ [(t, MState true)]) p <-> listed_pattern (cur h) p \/ force h p.
  Proof.
    split.
    - intros (h1 & h2 & E & S & L & N). destruct h2 as [|q h2 _] using rev_ind.
      + rewrite app_nil_r in E. subst h1. rewrite current_snoc in L. cbn [snd] in L. rewrite set_state_none in L. auto.
      + rewrite app_assoc in E. apply app_inj_tail in E as [-> <-]. right. exists h1, h2. repeat split; auto.
        intros t' H. apply (N t'). apply in_app_iff; auto.
    - intros [L|(h1 & h2 & -> & S & L & N)].
      + exists (h ++ [(t, MState true)]), []. rewrite app_nil_r. repeat split; eauto.
        rewrite current_snoc. cbn [snd]. rewrite set_state_none. exact L.
      + exists h1, (h2 ++ [(t, MState true)]). rewrite app_assoc. repeat split; auto.
        intros t' H. apply in_app_iff in H as [H|[H|[]]]; [eapply N; eauto|congruence].
  Qed.
  Lemma force_other h t o p : (forall b, o <> MState b) -> (force (h ++ [(t, o)]) p <-> force h p).
  Proof.
    intros No. split.
    - intros (h1 & h2 & E & S & L & N). destruct h2 as [|q h2 _] using rev_ind.
      + rewrite app_nil_r in E. subst h1. exfalso. destruct S as [S|(h0 & t0 & S)].
        * destruct h; discriminate.
        * apply app_inj_tail in S as [_ S]. injection S as _ S. eapply No; eauto.
      + rewrite app_assoc in E. apply app_inj_tail in E as [-> <-]. exists h1, h2. repeat split; auto.
        intros t' H. apply (N t'). apply in_app_iff; auto.
    - intros (h1 & h2 & -> & S & L & N). exists h1, (h2 ++ [(t, o)]). rewrite app_assoc. repeat split; auto.
      intros t' H. apply in_app_iff in H as [H|[H|[]]]; [eapply N; eauto|]. injection H as _ H. eapply No; eauto.
  Qed.
  Lemma current_offered h : forall p, listed_pattern (cur h) p -> offered set_of cfg h p.
  Proof.
    induction h as [|[t o] h IH] using rev_ind; intros p L; [left; exact L|].
    rewrite current_snoc in L. cbn [snd] in L. destruct (set_of o) as [f|] eqn:E.
    - right. exists t, o, f. repeat split; auto. apply in_app_iff; right; left; reflexivity.
    - destruct (IH p L) as [|(t' & o' & f & H & Q)]; [left; assumption|]. right. exists t', o', f. split; [apply in_app_iff; auto|exact Q].
  Qed.
  Lemma offered_app h h2 p : offered set_of cfg h p -> offered set_of cfg (h ++ h2) p.
  Proof. intros [L|(t & o & f & H & Q)]; [left; exact L|]. right. exists t, o, f. split; [apply in_app_iff; auto|exact Q]. Qed.
  Lemma force_offered h p : force h p -> offered set_of cfg h p.
  Proof. intros (h1 & h2 & -> & _ & L & _). apply offered_app. apply current_offered. exact L. Qed.

  (** The stored set represents the patterns in force. *)
  Record stored (h : list (Z * mop)) (s : text) (ps : list text) : Prop := {
    st_s : s = cur h;
    st_in : forall p, In p ps -> force h p;
    st_all : forall p, force h p -> exists q, In q ps /\ same_letters p q }.
  Lemma stored_on h t s ps : stored h s ps ->
    stored (h ++ [(t, MState true)]) s (set_all icase_ltb (mon_tokens s) ps).
  Proof.
    intros [S I A]. constructor.
    - rewrite current_snoc. cbn [snd]. rewrite set_state_none. exact S.
    - intros p H. apply force_on. apply set_all_in in H as [H|H]; [left|right; auto].
      apply tokens_spec in H. congruence.
    - intros p H. apply force_on in H as [H|H].
      + rewrite <- S in H. apply tokens_spec in H.
        destruct (set_all_covers icase_ltb icase_irr _ ps p H) as (q & Hq & A1 & A2). exists q. split; [exact Hq|]. apply icase_none; assumption.
      + destruct (A p H) as (q & Hq & E). exists q. split; [|exact E]. apply (set_all_keeps icase_ltb). exact Hq.
  Qed.
  Lemma stored_off h t s ps : stored h s ps -> stored (h ++ [(t, MState false)]) s [].
  Proof.
    intros [S I A]. constructor.
    - rewrite current_snoc. cbn [snd]. rewrite set_state_none. exact S.
    - intros p [].
    - intros p H. destruct (force_off _ _ _ H).
  Qed.
  Lemma stored_other h t o s ps : (forall b, o <> MState b) -> stored h s ps ->
    stored (h ++ [(t, o)]) (match set_of o with Some f => f | None => s end) ps.
  Proof.
    intros No [S I A]. constructor.
    - rewrite current_snoc. cbn [snd]. destruct (set_of o); auto.
    - intros p H. apply force_other; auto.
    - intros p H. apply A. apply (force_other h t o p No). exact H.
  Qed.
End Force.

Section Mon.
Variable compile : text -> option (text -> bool).
Variable excl0 incl0 : text.
Notation exf := (in_force set_excl_of excl0).
Notation inf := (in_force set_incl_of incl0).
Notation good := (good_patterns compile excl0 incl0).
Notation matches := (matches compile).
Notation known := (known compile excl0 incl0).

Lemma good_app h h2 : good (h ++ h2) -> good h.
Proof.
  intros [G1 G2]. split.
  - intros p Hp. apply G1. destruct Hp; [left|right]; apply offered_app; assumption.
  - intros p q Hp Hq. apply G2; [destruct Hp|destruct Hq]; [left|right|left|right]; apply offered_app; assumption.
Qed.

Lemma any_match_spec name ps : (forall p, In p ps -> compile p <> None) ->
  exists b, any_match compile name ps = DOk b /\ (b = true <-> exists p, In p ps /\ matches p name).
Proof.
  induction ps as [|p ps IH]; intros H; cbn [any_match].
  - exists false. split; [reflexivity|]. split; [discriminate|]. intros (p & [] & _).
  - destruct (compile p) as [f|] eqn:C; [|exfalso; apply (H p); [left; reflexivity|exact C]].
    destruct (f name) eqn:F.
    + exists true. split; [reflexivity|]. split; [|reflexivity]. intros _. exists p. split; [left; reflexivity|]. exists f. auto.
    + destruct IH as (b & E & Q); [intros q Hq; apply H; right; exact Hq|]. exists b. split; [exact E|]. rewrite Q. split.
      * intros (q & Hq & M). exists q. split; [right; exact Hq|exact M].
      * intros (q & [<-|Hq] & M); [|eauto]. destruct M as (g & Cg & Gn). congruence.
Qed.

(** The filter decision. *)
Lemma admit_spec h name m : good h -> stored set_excl_of excl0 h (mo_excl_s m) (mo_excl m) ->
  stored set_incl_of incl0 h (mo_incl_s m) (mo_incl m) ->
  exists b, admit compile name m = DOk b /\ (b = true <-> selected compile excl0 incl0 h name).
Proof.
  intros [G1 G2] [_ Ei Ea] [_ Ii Ia].
  assert (forall p, exf h p -> offered set_excl_of excl0 h p \/ offered set_incl_of incl0 h p) as Oe.
  { intros p H. left. apply force_offered. exact H. }
  assert (forall p, inf h p -> offered set_excl_of excl0 h p \/ offered set_incl_of incl0 h p) as Oi.
  { intros p H. right. apply force_offered. exact H. }
  destruct (any_match_spec name (mo_excl m)) as (b1 & E1 & Q1); [intros p H; apply G1, Oe, Ei; exact H|].
  destruct (any_match_spec name (mo_incl m)) as (b2 & E2 & Q2); [intros p H; apply G1, Oi, Ii; exact H|].
  unfold admit. rewrite E1. cbn [dbind].
  destruct b1.
  - exists false. split; [reflexivity|]. split; [discriminate|]. intros [S _]. exfalso.
    destruct Q1 as [Q1 _]. destruct (Q1 eq_refl) as (p & Hp & M). apply (S p); auto.
  - assert (forall p, exf h p -> ~ matches p name) as S1.
    { intros p Hp M. destruct (Ea p Hp) as (q & Hq & SL). destruct Q1 as [_ Q1]. assert (false = true) as X; [|discriminate].
      apply Q1. exists q. split; [exact Hq|]. apply (G2 p q); auto. }
    destruct (mo_incl m) as [|p0 ps] eqn:Em.
    + exists true. split; [reflexivity|]. split; [|reflexivity]. intros _. split; [exact S1|]. left.
      intros p Hp. destruct (Ia p Hp) as (q & [] & _).
    + exists b2. split; [exact E2|]. rewrite Q2. split.
      * intros (p & Hp & M). split; [exact S1|]. right. exists p. split; [apply Ii; exact Hp|exact M].
      * intros [_ [N|(p & Hp & M)]].
        -- exfalso. apply (N p0). apply Ii. left; reflexivity.
        -- destruct (Ia p Hp) as (q & Hq & SL). exists q. split; [exact Hq|]. apply (G2 p q); auto.
Qed.

(** ** What is known is unique *)
Lemma ann_wd k : announces k <> withdraws k.
Proof. destruct k; discriminate. Qed.
Lemma known_snoc k timeout mine h p x : known k timeout mine (h ++ [p]) x -> exists y, known k timeout mine h y /\
  match snd p with
  | MSample s =>
      (sm_cmd s = announces k /\ mine s /\ accepted compile excl0 incl0 k h s /\
         x = Some ((match y with Some (n, _, _) => n + 1 | None => 1 end)%Z, s, fst p)) \/
      (sm_cmd s = withdraws k /\ mine s /\ x = None) \/
      (~ (mine s /\ (sm_cmd s = withdraws k \/ (sm_cmd s = announces k /\ accepted compile excl0 incl0 k h s))) /\ x = y)
  | MLook e =>
      ((exists n s t, y = Some (n, s, t) /\ asked k e /\ (t < fst p - timeout)%Z) /\ x = None) \/
      ((forall n s t, y = Some (n, s, t) -> asked k e -> (fst p - timeout <= t)%Z) /\ x = y)
  | _ => x = y
  end.
Proof.
  intros K. inversion K as [E|h' t s K' C M A E|h' t s n s0 t0 K' C M A E|h' t s x' K' C M E|h' t e n s0 t0 K' A L E
                            |h' t s x' K' N E|h' t e x' K' N E|h' t o x' K' N1 N2 E].
  - destruct h; discriminate.
  - apply app_inj_tail in E as [-> <-]. exists None. split; [exact K'|]. cbn [fst snd]. left. auto.
  - apply app_inj_tail in E as [-> <-]. exists (Some (n, s0, t0)). split; [exact K'|]. cbn [fst snd]. left. auto.
  - apply app_inj_tail in E as [-> <-]. exists x'. split; [exact K'|]. cbn [fst snd]. right; left. auto.
  - apply app_inj_tail in E as [-> <-]. exists (Some (n, s0, t0)). split; [exact K'|]. cbn [fst snd]. left. eauto 8.
  - apply app_inj_tail in E as [-> <-]. subst. exists x. split; [exact K'|]. cbn [fst snd]. right; right. auto.
  - apply app_inj_tail in E as [-> <-]. subst. exists x. split; [exact K'|]. cbn [fst snd]. right. auto.
  - apply app_inj_tail in E as [-> <-]. subst. exists x. split; [exact K'|]. cbn [fst snd].
    destruct o; try reflexivity; exfalso; [eapply N1|eapply N2]; reflexivity.
Qed.
Lemma known_fun k timeout mine h : forall x y, known k timeout mine h x -> known k timeout mine h y -> x = y.
Proof.
  induction h as [|p h IH] using rev_ind; intros x y Kx Ky.
  - inversion Kx as [|? ? ? ? ? ? ? E|? ? ? ? ? ? ? ? ? ? E|? ? ? ? ? ? ? E|? ? ? ? ? ? ? ? ? E|? ? ? ? ? ? E|? ? ? ? ? ? E|? ? ? ? ? ? ? E];
      try (destruct h; discriminate).
    inversion Ky as [|? ? ? ? ? ? ? E|? ? ? ? ? ? ? ? ? ? E|? ? ? ? ? ? ? E|? ? ? ? ? ? ? ? ? E|? ? ? ? ? ? E|? ? ? ? ? ? E|? ? ? ? ? ? ? E];
      try (destruct h; discriminate). reflexivity.
  - apply known_snoc in Kx as (x0 & Kx & Sx). apply known_snoc in Ky as (y0 & Ky & Sy).
    rewrite (IH _ _ Ky Kx) in *. clear Ky y0 IH. pose proof (ann_wd k) as W.
    destruct (snd p) as [s|e|f|f|b]; try congruence.
    + destruct Sx as [(C & M & A & ->)|[(C & M & ->)|(N & ->)]]; destruct Sy as [(C' & M' & A' & ->)|[(C' & M' & ->)|(N' & ->)]];
        try congruence; exfalso; tauto.
    + destruct Sx as [((n & s & t & E & A & L) & ->)|(N & ->)]; destruct Sy as [((n' & s' & t' & E' & A' & L') & ->)|(N' & ->)]; try congruence.
      * specialize (N' _ _ _ E A). lia.
      * specialize (N _ _ _ E' A'). lia.
Qed.
(** Only the samples of the history matter. *)
Lemma known_ext k timeout (mine mine' : sample -> Prop) h :
  (forall t s, In (t, MSample s) h -> of_kind k s -> (mine s <-> mine' s)) ->
  forall x, known k timeout mine h x -> known k timeout mine' h x.
Proof.
  induction h as [|[t o] h IH] using rev_ind; intros H x K.
  - inversion K as [|? ? ? ? ? ? ? E|? ? ? ? ? ? ? ? ? ? E|? ? ? ? ? ? ? E|? ? ? ? ? ? ? ? ? E|? ? ? ? ? ? E|? ? ? ? ? ? E|? ? ? ? ? ? ? E];
      try (destruct h; discriminate). constructor.
  - assert (forall x, known k timeout mine h x -> known k timeout mine' h x) as IH' by
      (apply IH; intros t' s' Hi; apply (H t'); apply in_app_iff; auto). clear IH.
    specialize (H t). apply known_snoc in K as (y & Ky & S). apply IH' in Ky. cbn [fst snd] in S.
    destruct o as [s|e|f|f|b].
    + assert (of_kind k s -> (mine s <-> mine' s)) as H' by (apply H; apply in_app_iff; right; left; reflexivity).
      destruct S as [(C & M & A & ->)|[(C & M & ->)|(N & ->)]].
      * apply H' in M; [|left; exact C]. destruct y as [[[n s0] t0]|]; [eapply kn_again|eapply kn_first]; eassumption.
      * apply H' in M; [|right; exact C]. eapply kn_gone; eassumption.
      * apply kn_sample; [exact Ky|]. unfold of_kind in *. tauto.
    + destruct S as [((n & s & t1 & -> & A & L) & ->)|(N & ->)]; [eapply kn_old; eassumption|apply kn_look; assumption].
    + subst. apply kn_set; [exact Ky|discriminate|discriminate].
    + subst. apply kn_set; [exact Ky|discriminate|discriminate].
    + subst. apply kn_set; [exact Ky|discriminate|discriminate].
Qed.
Lemma known_in k timeout mine h : forall n s t, known k timeout mine h (Some (n, s, t)) ->
  In (t, MSample s) h /\ sm_cmd s = announces k /\ mine s.
Proof.
  induction h as [|[t0 o] h IH] using rev_ind; intros n s t K.
  - inversion K as [|? ? ? ? ? ? ? E|? ? ? ? ? ? ? ? ? ? E|? ? ? ? ? ? ? E|? ? ? ? ? ? ? ? ? E|? ? ? ? ? ? E|? ? ? ? ? ? E|? ? ? ? ? ? ? E];
      destruct h; discriminate.
  - apply known_snoc in K as (y & Ky & S). cbn [fst snd] in S.
    assert (Some (n, s, t) = y -> In (t, MSample s) (h ++ [(t0, o)]) /\ sm_cmd s = announces k /\ mine s) as Old.
    { intros <-. destruct (IH _ _ _ Ky) as (Hi & Q). split; [apply in_app_iff; auto|exact Q]. }
    destruct o as [s'|e|f|f|b]; auto.
    + destruct S as [(C & M & A & E)|[(C & M & E)|(N & E)]]; [|discriminate|auto].
      injection E as -> -> ->. split; [apply in_app_iff; right; left; reflexivity|auto].
    + destruct S as [(_ & E)|(N & E)]; [discriminate|auto].
Qed.

(** ** One table *)
Section Table.
  Context {V : Type}.
  Variable k : kind.
  Variable dflt : V.
  Variable put : sample -> V -> V.
  Variable show : Z -> sample -> V.
  Hypothesis put_first : forall s, put s dflt = show 1 s.
  Hypothesis put_again : forall n s s', put s (show n s') = show (n + 1) s.
  Variable timeout : Z.

  Definition mine (l : text) (s : sample) : Prop := label k s = l.
  Definition image (x : option (Z * sample * Z)) : option (V * Z) :=
    match x with Some (n, s, t) => Some (show n s, t) | None => None end.
  Record tab (now : Z) (h : list (Z * mop)) (m : emap text V) : Prop := {
    ta_inv : Inv now m;
    ta_to : e_timeout m = timeout;
    ta_at : forall l, exists x, known k timeout (mine l) h x /\ a_list (abs m) l = image x }.

  Lemma tab_new now : tab now [] (em_new timeout).
  Proof. constructor; [apply inv_new|reflexivity|]. intros l. exists None. split; [constructor|reflexivity]. Qed.
  Lemma tab_later now now' h m : (now <= now')%Z -> tab now h m -> tab now' h m.
  Proof. intros L [I T A]. constructor; auto. eapply inv_weaken; eauto. Qed.
  Lemma tab_same now h o m : tab now h m ->
    (forall l x, known k timeout (mine l) h x -> known k timeout (mine l) (h ++ [(now, o)]) x) ->
    tab now (h ++ [(now, o)]) m.
  Proof. intros [I T A] H. constructor; auto. intros l. destruct (A l) as (x & K & E). exists x. auto. Qed.
  Lemma tab_enter now h s m : tab now h m -> sm_cmd s = announces k -> accepted compile excl0 incl0 k h s ->
    exists m', enter dflt now (label k s) (put s) m = DOk m' /\ tab now (h ++ [(now, MSample s)]) m'.
  Proof.
    intros [I T A] C Ac.
    destruct (inv_step dflt (OIndex now (label k s) (put s)) now m I) as (m' & R & I' & (Al & At)); [discriminate|cbn; lia|].
    cbn in R. cbn in I', At. exists m'. unfold enter. rewrite R. split; [reflexivity|]. constructor; [exact I'|congruence|].
    intros l. rewrite Al. cbn [spec_step a_list]. unfold upd. destruct (eqb l (label k s)) eqn:E.
    - apply eqb_true in E. subst l. destruct (A (label k s)) as (x & K & Ex). cbn [abs a_list] in Ex. cbn [abs a_list]. rewrite Ex.
      destruct x as [[[n s0] t0]|]; cbn [image].
      + exists (Some ((n + 1)%Z, s, now)). split; [eapply kn_again; eauto; reflexivity|]. cbn. rewrite put_again. reflexivity.
      + exists (Some (1%Z, s, now)). split; [eapply kn_first; eauto; reflexivity|]. cbn. rewrite put_first. reflexivity.
    - apply eqb_false in E. destruct (A l) as (x & K & Ex). exists x. split; [|exact Ex].
      apply kn_sample; [exact K|]. intros [M _]. unfold mine in M. congruence.
  Qed.
  Lemma tab_leave now h s m : tab now h m -> sm_cmd s = withdraws k ->
    exists m', leave (label k s) m = DOk m' /\ tab now (h ++ [(now, MSample s)]) m'.
  Proof.
    intros [I T A] C.
    destruct (inv_step dflt (OErase (label k s)) now m I) as (m' & R & I' & (Al & At)); [discriminate|exact Logic.I|].
    cbn in R. destruct (em_erase (label k s) m) as [[m1 b]|] eqn:Em; [|discriminate]. injection R as ->.
    exists m'. unfold leave. rewrite Em. split; [reflexivity|]. cbn in I', At. constructor; [exact I'|congruence|].
    intros l. rewrite Al. cbn [spec_step a_list]. unfold upd. destruct (eqb l (label k s)) eqn:E.
    - apply eqb_true in E. subst l. destruct (A (label k s)) as (x & K & Ex). exists None. split; [|reflexivity].
      eapply kn_gone; eauto. reflexivity.
    - apply eqb_false in E. destruct (A l) as (x & K & Ex). exists x. split; [|exact Ex].
      apply kn_sample; [exact K|]. intros [M _]. unfold mine in M. congruence.
  Qed.
  Lemma tab_look now h e b m : tab now h m -> (b = true <-> asked k e) ->
    tab now (h ++ [(now, MLook e)]) (purge b now m).
  Proof.
    clear put put_first put_again. intros T0 Hb. destruct b; cbn [purge].
    - assert (asked k e) as As by (apply Hb; reflexivity). destruct T0 as [I T A].
      destruct (inv_step dflt (OExpire now) now m I) as (m' & R & I' & (Al & At)); [discriminate|cbn; lia|].
      cbn in R. injection R as <-. cbn in I', At. constructor; [exact I'|congruence|].
      intros l. cbn [spec_step a_list] in Al. rewrite Al. destruct (A l) as (x & K & Ex). rewrite Ex. cbn [abs a_timeout]. rewrite T.
      destruct x as [[[n s0] t0]|]; cbn [image].
      + destruct (Z.ltb_spec t0 (now - timeout)).
        * exists None. split; [eapply kn_old; eauto|reflexivity].
        * exists (Some (n, s0, t0)). split; [|reflexivity]. apply kn_look; [exact K|]. intros n1 s1 t1 E1 _. injection E1 as <- <- <-. exact H.
      + exists None. split; [|reflexivity]. apply kn_look; [exact K|discriminate].
    - apply tab_same; [exact T0|]. intros l x K. apply kn_look; [exact K|]. intros ? ? ? _ Q. apply Hb in Q. discriminate.
  Qed.
  Lemma tab_foreign now h s m : tab now h m -> sm_cmd s <> announces k -> sm_cmd s <> withdraws k ->
    tab now (h ++ [(now, MSample s)]) m.
  Proof. intros T N1 N2. apply tab_same; [exact T|]. intros l x K. apply kn_sample; [exact K|]. tauto. Qed.
  Lemma tab_reject now h s m : tab now h m -> sm_cmd s = announces k -> ~ accepted compile excl0 incl0 k h s ->
    tab now (h ++ [(now, MSample s)]) m.
  Proof.
    intros T C N. apply tab_same; [exact T|]. intros l x K. apply kn_sample; [exact K|].
    pose proof (ann_wd k). intros [_ [W|[_ A]]]; [congruence|contradiction].
  Qed.
  Lemma tab_set now h o m : tab now h m -> (forall s, o <> MSample s) -> (forall e, o <> MLook e) -> tab now (h ++ [(now, o)]) m.
  Proof. intros T N1 N2. apply tab_same; [exact T|]. intros l x K. apply kn_set; assumption. Qed.

  (** The listing of the table. *)
  Variable shows : Z -> sample -> V -> Prop.
  Hypothesis show_shows : forall n s, shows n s (show n s).
  Lemma tab_lists now h m : tab now h m ->
    lists (fun l => known k timeout (mine l) h) shows (now - timeout) (entries true (purge true now m)).
  Proof.
    clear put put_first put_again. intros [I T A]. cbn [entries purge].
    destruct (inv_step dflt (OExpire now) now m I) as (m' & R & I' & (Al & At)); [discriminate|cbn; lia|].
    cbn in R. injection R as R. rewrite R. cbn in I'. cbn [spec_step a_list abs a_timeout] in Al. rewrite T in Al.
    assert (forall l v, In (l, v) (em_contents m') <->
      exists n s t, known k timeout (mine l) h (Some (n, s, t)) /\ (now - timeout <= t)%Z /\ v = show n s) as C.
    { intros l v. rewrite (contents_find m' l v (i_0 _ _ I')). rewrite (em_find_abs now m' l I'). cbn [abs a_list]. rewrite Al.
      destruct (A l) as (x & K & Ex). cbn [abs a_list] in Ex. rewrite Ex. destruct x as [[[n s0] t0]|]; cbn [image].
      - destruct (Z.ltb_spec t0 (now - timeout)).
        + split; [discriminate|]. intros (n1 & s1 & t1 & K1 & L1 & _).
          pose proof (known_fun _ _ _ _ _ _ K K1) as Q. injection Q as <- <- <-. lia.
        + split.
          * intros Q; injection Q as <-. exists n, s0, t0. auto.
          * intros (n1 & s1 & t1 & K1 & _ & ->). pose proof (known_fun _ _ _ _ _ _ K K1) as Q. injection Q as <- <- <-. reflexivity.
      - split; [discriminate|]. intros (n1 & s1 & t1 & K1 & _). pose proof (known_fun _ _ _ _ _ _ K K1). discriminate. }
    exists (map fst (em_contents m')). split; [apply contents_nodup; apply (i_0 _ _ I')|]. split.
    - assert (forall c : list (text * V), (forall l v, In (l, v) c -> In (l, v) (em_contents m')) ->
        Forall2 (fun x e => exists n s t, known k timeout (mine x) h (Some (n, s, t)) /\ (now - timeout <= t)%Z /\ shows n s e) (map fst c) (map snd c)) as G.
      { induction c as [|[l v] c IH]; intros Hc; cbn [map]; constructor.
        - cbn. destruct (proj1 (C l v)) as (n & s & t & K & L & ->); [apply Hc; left; reflexivity|]. exists n, s, t. auto.
        - apply IH. intros l' v' H. apply Hc. right; exact H. }
      apply G. auto.
    - intros l n s t K L. apply in_map_iff. exists (l, show n s). split; [reflexivity|]. apply C. exists n, s, t. auto.
  Qed.
End Table.

(** ** The whole monitoring *)
Definition show_process (n : Z) (s : sample) : pmon :=
  let p := sm_process s in
  (sm_host s, sm_pid s,
   Process n (pr_hgname p) (pr_pname p) (pr_uname p) (pr_pparam p) (pr_severity p) (pr_severity_level p) (pr_info p)
     (pr_tsync_state p) (pr_tsync_mod p) (pr_comp_state p) (pr_comp_info p) (pr_version p)).
Definition show_topic (dir : text) (n : Z) (s : sample) : tmon :=
  let t := sm_topic s in
  (sm_host s, sm_pid s, sm_entity s,
   Topic n (tp_hgname t) (tp_pname t) (tp_uname t) (tp_tname t) dir
     (tp_dtype t) (mon_layers (tp_layers t)) (tp_tsize t)
     (tp_conn_loc t) (tp_conn_ext t) (tp_drops t) (tp_did t) (tp_dclock t) (tp_dfreq t) (tp_attr t)).
Definition show_server (n : Z) (s : sample) : smon :=
  let v := sm_service s in
  (sm_host s, sm_pid s, sm_entity s,
   Service n (sv_pname v) (sv_uname v) (sv_sname v) (sv_methods v) 0 (sv_port0 v) (sv_port1 v)).
Definition show_client (n : Z) (s : sample) : cmon :=
  let v := sm_client s in
  (sm_host s, sm_pid s, sm_entity s, Client n (cl_pname v) (cl_uname v) (cl_sname v) (cl_methods v) 0).

Lemma layer_active_spec ty ls : layer_active ty ls = true <-> exists x, In x ls /\ ly_type x = ty /\ ly_active x = true.
Proof.
  unfold layer_active. induction ls as [|a ls IH] using rev_ind.
  - split; [discriminate|]. intros (x & [] & _).
  - rewrite fold_left_app. cbn [fold_left]. rewrite orb_true_iff, IH, andb_true_iff. split.
    + intros [(x & H & Q)|[E A]]; [exists x; split; [apply in_app_iff; auto|exact Q]|].
      apply eqb_true in E. exists a. split; [apply in_app_iff; right; left; reflexivity|auto].
    + intros (x & H & E & A). apply in_app_iff in H as [H|[<-|[]]]; [left; eauto|]. right. rewrite E. split; [apply eqb_refl|exact A].
Qed.
Lemma show_process_shows n s : shows_process n s (show_process n s).
Proof. unfold shows_process, show_process; cbn. repeat split. Qed.
Lemma show_topic_shows dir n s : shows_topic dir n s (show_topic dir n s).
Proof.
  unfold shows_topic, show_topic; cbn. repeat (split; [reflexivity|]).
  do 3 eexists. split; [reflexivity|]. unfold shows_layer; cbn.
  repeat split; try (apply layer_active_spec).
Qed.
Lemma show_server_shows n s : shows_server n s (show_server n s).
Proof. unfold shows_server, show_server; cbn. repeat split. Qed.
Lemma show_client_shows n s : shows_client n s (show_client n s).
Proof. unfold shows_client, show_client; cbn. repeat split. Qed.

Variable timeout : Z.
Record minv (now : Z) (h : list (Z * mop)) (m : mon) : Prop := {
  mi_ex : stored set_excl_of excl0 h (mo_excl_s m) (mo_excl m);
  mi_in : stored set_incl_of incl0 h (mo_incl_s m) (mo_incl m);
  mi_proc : tab KProcess show_process timeout now h (mo_proc m);
  mi_pub : tab KPublisher (show_topic (str "publisher")) timeout now h (mo_pub m);
  mi_sub : tab KSubscriber (show_topic (str "subscriber")) timeout now h (mo_sub m);
  mi_srv : tab KServer show_server timeout now h (mo_srv m);
  mi_cli : tab KClient show_client timeout now h (mo_cli m) }.

Lemma minv_later now now' h m : (now <= now')%Z -> minv now h m -> minv now' h m.
Proof. intros L [A B C D E F G]. constructor; auto; eapply tab_later; eauto. Qed.

Lemma stored_start set_of cfg : stored set_of cfg [] cfg (set_all icase_ltb (mon_tokens cfg) []).
Proof.
  constructor; [reflexivity| |].
  - intros p H. apply force_start. apply set_all_in in H as [H|[]]. apply tokens_spec. exact H.
  - intros p H. apply force_start in H. apply tokens_spec in H.
    destruct (set_all_covers icase_ltb icase_irr _ [] p H) as (q & Hq & A1 & A2). exists q. split; [exact Hq|]. apply icase_none; assumption.
Qed.
Lemma minv_new now : minv now [] (mon_create timeout excl0 incl0).
Proof. unfold mon_create, set_state. constructor; cbn; [apply stored_start|apply stored_start| | | | |]; apply tab_new. Qed.

Lemma wants_asked k e b : b = wants (2 ^ Z.of_nat (bit_of k)) e -> (b = true <-> asked k e).
Proof.
  intros ->. unfold wants, asked. rewrite negb_true_iff, Z.eqb_neq.
  assert (0 <= Z.of_nat (bit_of k))%Z as P by lia. revert P. generalize (Z.of_nat (bit_of k)). intros i P.
  split.
  - intros N. destruct (Z.testbit e i) eqn:T; [reflexivity|]. exfalso. apply N. apply Z.bits_inj'. intros j Hj.
    rewrite Z.land_spec, Z.bits_0, Z.pow2_bits_eqb by exact P. destruct (Z.eqb_spec i j); [subst; rewrite T; reflexivity|apply andb_false_r].
  - intros T E. assert (Z.testbit (Z.land e (2 ^ i)) i = true) as Q by (rewrite Z.land_spec, T, Z.pow2_bits_true by exact P; reflexivity).
    rewrite E, Z.bits_0 in Q. discriminate.
Qed.

Lemma sample_stored set_of cfg h t s f ps : (forall s, set_of (MSample s) = None) -> stored set_of cfg h f ps -> stored set_of cfg (h ++ [(t, MSample s)]) f ps.
Proof. intros N S. pose proof (stored_other set_of cfg h t (MSample s) f ps ltac:(discriminate) S) as Q. rewrite N in Q. exact Q. Qed.

Ltac foreign E := apply tab_foreign; [assumption|rewrite E; discriminate|rewrite E; discriminate].

Lemma minv_step now o h m : minv now h m -> good h ->
  exists m', mon_step compile now o m = DOk m' /\ minv now (h ++ [(now, o)]) m'.
Proof.
  intros [E0 I0 Pr Pu Su Sr Cl] G. destruct o as [s|e|f|f|b]; cbn [mon_step].
  - pose proof (sample_stored set_excl_of excl0 h now s _ _ ltac:(reflexivity) E0) as E1.
    pose proof (sample_stored set_incl_of incl0 h now s _ _ ltac:(reflexivity) I0) as I1.
    unfold mon_apply. destruct (sm_cmd s) eqn:C.
    + exists m. split; [reflexivity|]. constructor; auto; foreign C.
    + exists m. split; [reflexivity|]. constructor; auto; foreign C.
    + unfold reg_pub. destruct (admit_spec h (tp_tname (sm_topic s)) m G E0 I0) as (b & -> & Hb). cbn [dbind]. destruct b.
      * destruct (tab_enter KPublisher tmon0 (put_topic (str "publisher")) (show_topic (str "publisher")) ltac:(reflexivity) ltac:(reflexivity)
                    timeout now h s (mo_pub m) Pu C ltac:(apply Hb; reflexivity)) as (x & Ex & Tx).
        change (label KPublisher s) with (topic_key s) in Ex. rewrite Ex. eexists. split; [reflexivity|].
        constructor; cbn; auto; foreign C.
      * exists m. split; [reflexivity|]. constructor; auto; try foreign C.
        apply tab_reject; [exact Pu|exact C|]. intros A. apply Hb in A. discriminate.
    + unfold reg_sub. destruct (admit_spec h (tp_tname (sm_topic s)) m G E0 I0) as (b & -> & Hb). cbn [dbind]. destruct b.
      * destruct (tab_enter KSubscriber tmon0 (put_topic (str "subscriber")) (show_topic (str "subscriber")) ltac:(reflexivity) ltac:(reflexivity)
                    timeout now h s (mo_sub m) Su C ltac:(apply Hb; reflexivity)) as (x & Ex & Tx).
        change (label KSubscriber s) with (topic_key s) in Ex. rewrite Ex. eexists. split; [reflexivity|].
        constructor; cbn; auto; foreign C.
      * exists m. split; [reflexivity|]. constructor; auto; try foreign C.
        apply tab_reject; [exact Su|exact C|]. intros A. apply Hb in A. discriminate.
    + destruct (tab_enter KProcess pmon0 put_process show_process ltac:(reflexivity) ltac:(reflexivity)
                    timeout now h s (mo_proc m) Pr C Logic.I) as (x & Ex & Tx).
      change (label KProcess s) with (process_key s) in Ex. rewrite Ex. eexists. split; [reflexivity|].
      constructor; cbn; auto; foreign C.
    + destruct (tab_enter KServer smon0 put_server show_server ltac:(reflexivity) ltac:(reflexivity)
                    timeout now h s (mo_srv m) Sr C Logic.I) as (x & Ex & Tx).
      change (label KServer s) with (server_key s) in Ex. rewrite Ex. eexists. split; [reflexivity|].
      constructor; cbn; auto; foreign C.
    + destruct (tab_enter KClient cmon0 put_client show_client ltac:(reflexivity) ltac:(reflexivity)
                    timeout now h s (mo_cli m) Cl C Logic.I) as (x & Ex & Tx).
      change (label KClient s) with (client_key s) in Ex. rewrite Ex. eexists. split; [reflexivity|].
      constructor; cbn; auto; foreign C.
    + destruct (tab_leave KPublisher tmon0 (show_topic (str "publisher")) timeout now h s (mo_pub m) Pu C) as (x & Ex & Tx).
      change (label KPublisher s) with (topic_key s) in Ex. rewrite Ex. eexists. split; [reflexivity|].
      constructor; cbn; auto; foreign C.
    + destruct (tab_leave KSubscriber tmon0 (show_topic (str "subscriber")) timeout now h s (mo_sub m) Su C) as (x & Ex & Tx).
      change (label KSubscriber s) with (topic_key s) in Ex. rewrite Ex. eexists. split; [reflexivity|].
      constructor; cbn; auto; foreign C.
    + destruct (tab_leave KProcess pmon0 show_process timeout now h s (mo_proc m) Pr C) as (x & Ex & Tx).
      change (label KProcess s) with (process_key s) in Ex. rewrite Ex. eexists. split; [reflexivity|].
      constructor; cbn; auto; foreign C.
    + destruct (tab_leave KServer smon0 show_server timeout now h s (mo_srv m) Sr C) as (x & Ex & Tx).
      change (label KServer s) with (server_key s) in Ex. rewrite Ex. eexists. split; [reflexivity|].
      constructor; cbn; auto; foreign C.
    + destruct (tab_leave KClient cmon0 show_client timeout now h s (mo_cli m) Cl C) as (x & Ex & Tx).
      change (label KClient s) with (client_key s) in Ex. rewrite Ex. eexists. split; [reflexivity|].
      constructor; cbn; auto; foreign C.
    + exists m. split; [reflexivity|]. constructor; auto; foreign C.
  - eexists. split; [reflexivity|]. constructor; cbn.
    + apply (stored_other set_excl_of excl0 h now (MLook e) _ _ ltac:(discriminate) E0).
    + apply (stored_other set_incl_of incl0 h now (MLook e) _ _ ltac:(discriminate) I0).
    + apply (tab_look KProcess pmon0); [assumption|]. apply (wants_asked KProcess). reflexivity.
    + apply (tab_look KPublisher tmon0); [assumption|]. apply (wants_asked KPublisher). reflexivity.
    + apply (tab_look KSubscriber tmon0); [assumption|]. apply (wants_asked KSubscriber). reflexivity.
    + apply (tab_look KServer smon0); [assumption|]. apply (wants_asked KServer). reflexivity.
    + apply (tab_look KClient cmon0); [assumption|]. apply (wants_asked KClient). reflexivity.
  - eexists. split; [reflexivity|]. constructor; cbn; try (apply tab_set; [assumption|discriminate|discriminate]).
    + apply (stored_other set_excl_of excl0 h now (MExcl f) _ _ ltac:(discriminate) E0).
    + apply (stored_other set_incl_of incl0 h now (MExcl f) _ _ ltac:(discriminate) I0).
  - eexists. split; [reflexivity|]. constructor; cbn; try (apply tab_set; [assumption|discriminate|discriminate]).
    + apply (stored_other set_excl_of excl0 h now (MIncl f) _ _ ltac:(discriminate) E0).
    + apply (stored_other set_incl_of incl0 h now (MIncl f) _ _ ltac:(discriminate) I0).
  - eexists. split; [reflexivity|]. destruct b; constructor; cbn; try (apply tab_set; [assumption|discriminate|discriminate]).
    + apply stored_on; [reflexivity|assumption].
    + apply stored_on; [reflexivity|assumption].
    + eapply stored_off; [reflexivity|eassumption].
    + eapply stored_off; [reflexivity|eassumption].
Qed.

Lemma run_snoc os t o m : mon_run compile (os ++ [(t, o)]) m = dbind (mon_run compile os m) (mon_step compile t o).
Proof.
  revert m. induction os as [|[t' o'] os IH]; intros m; cbn [app mon_run dbind].
  - destruct (mon_step compile t o m); reflexivity.
  - destruct (mon_step compile t' o' m); cbn [dbind]; auto.
Qed.
Lemma upwards_snoc ts a b : upwards (ts ++ [a; b]) -> upwards (ts ++ [a]) /\ (a <= b)%Z.
Proof.
  induction ts as [|x ts IH]; intros U; [cbn in *; tauto|].
  destruct ts as [|y ts]; [cbn in *; tauto|]. cbn [app] in *. apply upwards_cons in U as [L U].
  destruct (IH U) as [U' L']. split; [|exact L']. apply upwards_cons. auto.
Qed.
Lemma run_inv os : forall now, upwards (map fst os ++ [now]) -> good os ->
  exists m, mon_run compile os (mon_create timeout excl0 incl0) = DOk m /\ minv now os m.
Proof.
  induction os as [|[t o] os IH] using rev_ind; intros now U G.
  - exists (mon_create timeout excl0 incl0). split; [reflexivity|apply minv_new].
  - rewrite map_app in U. cbn [map fst] in U. rewrite <- app_assoc in U. apply upwards_snoc in U as [U L].
    pose proof (good_app _ _ G) as G0. destruct (IH t U G0) as (m & R & M).
    destruct (minv_step t o os m M G0) as (m' & S & M'). exists m'. rewrite run_snoc, R. cbn [dbind]. split; [exact S|].
    eapply minv_later; eauto.
Qed.

(** Without a clock, for the filters alone. *)
Lemma admits os now name : upwards (map fst os ++ [now]) -> good os ->
  exists m b, mon_run compile os (mon_create timeout excl0 incl0) = DOk m /\ admit compile name m = DOk b /\
    (b = true <-> selected compile excl0 incl0 os name).
Proof.
  intros U G. destruct (run_inv os now U G) as (m & R & M).
  destruct (admit_spec os name m G (mi_ex _ _ _ M) (mi_in _ _ _ M)) as (b & E & Q). eauto.
Qed.

(** ** Labels and identities *)
Definition tell (k : kind) (h : list (Z * mop)) (l : text) := known k timeout (mine k l) h.
Definition tell_who (k : kind) (h : list (Z * mop)) (w : text * Z * text * text) :=
  known k timeout (fun s => who k s = w) h.

Lemma lists_who {V} (shows : Z -> sample -> V -> Prop) k h oldest l :
  (forall t s t' s', In (t, MSample s) h -> In (t', MSample s') h -> of_kind k s -> of_kind k s' ->
     (label k s = label k s' <-> who k s = who k s')) ->
  lists (tell k h) shows oldest l -> lists (tell_who k h) shows oldest l.
Proof.
  intros J (xs & N & F & A).
  assert (forall lb n s t, tell k h lb (Some (n, s, t)) -> forall w, w = who k s -> tell_who k h w (Some (n, s, t))) as To.
  { intros lb n s t K w ->. destruct (known_in _ _ _ _ _ _ _ K) as (Hi & C & M). unfold mine in M. subst lb.
    eapply known_ext; [|exact K]. intros t' s' H' O'. unfold mine. apply (J t' s' t s); auto. left; exact C. }
  assert (forall w n s t, tell_who k h w (Some (n, s, t)) -> tell k h (label k s) (Some (n, s, t)) /\ w = who k s) as From.
  { intros w n s t K. destruct (known_in _ _ _ _ _ _ _ K) as (Hi & C & M). subst w. split; [|reflexivity].
    eapply known_ext; [|exact K]. intros t' s' H' O'. unfold mine. symmetry. apply (J t' s' t s); auto. left; exact C. }
  assert (exists ws, NoDup ws /\ Forall2 (fun x e => exists n s t, tell_who k h x (Some (n, s, t)) /\ (oldest <= t)%Z /\ shows n s e) ws l /\
    forall w, In w ws <-> exists lb n s t, In lb xs /\ tell k h lb (Some (n, s, t)) /\ w = who k s) as (ws & Nw & Fw & Iw).
  { clear A. revert N. induction F as [|lb e xs l (n & s & t & K & L & Sh) F IH]; intros N.
    - exists []. repeat split; [constructor|constructor|intros []|]. intros (? & ? & ? & ? & [] & _).
    - inversion N as [|? ? Nl N']; subst. destruct (IH N') as (ws & Nw & Fw & Iw).
      exists (who k s :: ws). repeat split.
      + constructor; [|exact Nw]. rewrite Iw. intros (lb' & n' & s' & t' & Hl & K' & E). apply Nl.
        destruct (known_in _ _ _ _ _ _ _ K) as (Hi & C & M). destruct (known_in _ _ _ _ _ _ _ K') as (Hi' & C' & M').
        unfold mine in *. subst lb lb'. rewrite (proj2 (J t s t' s' Hi Hi' (or_introl C) (or_introl C')) E). exact Hl.
      + constructor; [|exact Fw]. exists n, s, t. repeat split; auto. eapply To; eauto.
      + intros [<-|Hw]; [exists lb, n, s, t; repeat split; auto; left; reflexivity|].
        apply Iw in Hw as (lb' & n' & s' & t' & Hl & K' & E). exists lb', n', s', t'. repeat split; auto. right; exact Hl.
      + intros (lb' & n' & s' & t' & [<-|Hl] & K' & ->).
        * pose proof (known_fun _ _ _ _ _ _ K K') as Q. injection Q as <- <- <-. left; reflexivity.
        * right. apply Iw. eauto 8. }
  exists ws. repeat split; auto.
  intros w n s t K L. destruct (From _ _ _ _ K) as [K' ->]. apply Iw.
  exists (label k s), n, s, t. repeat split; auto. eapply A; eauto.
Qed.

(** The listings. *)
Lemma listings os now ents : upwards (map fst os ++ [now]) -> good os ->
  exists m, mon_run compile os (mon_create timeout excl0 incl0) = DOk m /\
    let l := snd (mon_get now ents m) in
    (asked KProcess ents -> lists (tell KProcess os) shows_process (now - timeout) (mn_processes l)) /\
    (asked KPublisher ents -> lists (tell KPublisher os) (shows_topic (str "publisher")) (now - timeout) (mn_publisher l)) /\
    (asked KSubscriber ents -> lists (tell KSubscriber os) (shows_topic (str "subscriber")) (now - timeout) (mn_subscriber l)) /\
    (asked KServer ents -> lists (tell KServer os) shows_server (now - timeout) (mn_server l)) /\
    (asked KClient ents -> lists (tell KClient os) shows_client (now - timeout) (mn_clients l)) /\
    (~ asked KProcess ents -> mn_processes l = []) /\ (~ asked KPublisher ents -> mn_publisher l = []) /\
    (~ asked KSubscriber ents -> mn_subscriber l = []) /\ (~ asked KServer ents -> mn_server l = []) /\
    (~ asked KClient ents -> mn_clients l = []).
Proof.
  intros U G. destruct (run_inv os now U G) as (m & R & M). exists m. split; [exact R|].
  destruct M as [_ _ Pr Pu Su Sr Cl]. cbn [mon_get snd mn_processes mn_publisher mn_subscriber mn_server mn_clients
    mo_proc mo_pub mo_sub mo_srv mo_cli].
  pose proof (wants_asked KProcess ents _ eq_refl) as W1. pose proof (wants_asked KPublisher ents _ eq_refl) as W2.
  pose proof (wants_asked KSubscriber ents _ eq_refl) as W3. pose proof (wants_asked KServer ents _ eq_refl) as W4.
  pose proof (wants_asked KClient ents _ eq_refl) as W5.
  change (2 ^ Z.of_nat (bit_of KProcess))%Z with 16%Z in W1. change (2 ^ Z.of_nat (bit_of KPublisher))%Z with 1%Z in W2.
  change (2 ^ Z.of_nat (bit_of KSubscriber))%Z with 2%Z in W3. change (2 ^ Z.of_nat (bit_of KServer))%Z with 4%Z in W4.
  change (2 ^ Z.of_nat (bit_of KClient))%Z with 8%Z in W5.
  assert (forall {V} (b : bool) (P : Prop) (x : emap text V), (b = true <-> P) -> ~ P -> entries b (purge b now x) = []) as No.
  { intros V b P x Hb N. destruct b; [exfalso; apply N, Hb; reflexivity|reflexivity]. }
  repeat split; try (intros N; eapply No; eassumption); intros As.
  - apply W1 in As. rewrite As. apply (tab_lists KProcess pmon0 show_process); [exact show_process_shows|exact Pr].
  - apply W2 in As. rewrite As. apply (tab_lists KPublisher tmon0 (show_topic (str "publisher"))); [exact (show_topic_shows _)|exact Pu].
  - apply W3 in As. rewrite As. apply (tab_lists KSubscriber tmon0 (show_topic (str "subscriber"))); [exact (show_topic_shows _)|exact Su].
  - apply W4 in As. rewrite As. apply (tab_lists KServer smon0 show_server); [exact show_server_shows|exact Sr].
  - apply W5 in As. rewrite As. apply (tab_lists KClient cmon0 show_client); [exact show_client_shows|exact Cl].
Qed.
End Mon.

(** ** Decimal numbers *)
Lemma mc_decimal_spec fuel : forall z acc, (0 <= z < 10 ^ Z.of_nat (S fuel))%Z ->
  exists ds, McModel.decimal (S fuel) z acc = ds ++ acc /\ Forall (fun c => 48 <= c <= 57)%Z ds /\ ds <> [] /\
    forall a, fold_left (fun n c => n * 10 + (c - 48))%Z ds a = (a * 10 ^ Z.of_nat (length ds) + z)%Z.
Proof.
  induction fuel as [|fuel IH]; intros z acc B.
  - change (10 ^ Z.of_nat 1)%Z with 10%Z in B. exists [(48 + z)%Z]. cbn [McModel.decimal].
    rewrite Z.mod_small, Z.div_small by lia. cbn. repeat split; [constructor; [lia|constructor]|discriminate|].
    intros a. lia.
  - pose proof (Z.div_mod z 10 ltac:(lia)) as D. pose proof (Z.mod_pos_bound z 10 ltac:(lia)) as P.
    cbn [McModel.decimal]. cbv zeta. destruct (Z.eqb_spec (z / 10) 0) as [E|E].
    + exists [(48 + z mod 10)%Z]. cbn [app length]. repeat split; [constructor; [lia|constructor]|discriminate|].
      intros a. cbn. lia.
    + assert (0 <= z / 10 < 10 ^ Z.of_nat (S fuel))%Z as B'.
      { split; [apply Z.div_pos; lia|]. apply Z.div_lt_upper_bound; [lia|].
        replace (Z.of_nat (S (S fuel))) with (1 + Z.of_nat (S fuel))%Z in B by lia. rewrite Z.pow_add_r in B by lia. lia. }
      destruct (IH (z / 10)%Z ((48 + z mod 10)%Z :: acc) B') as (ds & E1 & F & N & V).
      cbn [McModel.decimal] in E1. cbv zeta in E1. rewrite E1. exists (ds ++ [(48 + z mod 10)%Z]). rewrite <- app_assoc. repeat split; auto.
      * apply Forall_app. split; [exact F|]. constructor; [lia|constructor].
      * destruct ds; discriminate.
      * intros a. rewrite fold_left_app, V. cbn [fold_left]. rewrite app_length. cbn [length].
        replace (Z.of_nat (length ds + 1)) with (Z.of_nat (length ds) + 1)%Z by lia. rewrite Z.pow_add_r by lia. lia.
Qed.
Lemma int_text_spec z : (0 <= z < 2147483648)%Z ->
  digits_only (int_text z) /\ int_text z <> [] /\ decimal (int_text z) = z.
Proof.
  intros B. unfold int_text. destruct (Z.ltb_spec z 0); [lia|]. unfold McModel.to_string.
  destruct (mc_decimal_spec 9 z []) as (ds & E & F & N & V); [change (10 ^ Z.of_nat 10)%Z with 10000000000%Z; lia|].
  rewrite E, app_nil_r. repeat split; auto. unfold decimal. rewrite V. lia.
Qed.
Lemma int_text_inj a b : (0 <= a < 2147483648)%Z -> (0 <= b < 2147483648)%Z -> int_text a = int_text b -> a = b.
Proof. intros A B E. destruct (int_text_spec a A) as (_ & _ & <-). destruct (int_text_spec b B) as (_ & _ & <-). rewrite E. reflexivity. Qed.

(** A name that does not end in a digit is the part before the trailing digits. *)
Lemma digit_tail n d n' d' : ~ ends_in_digit n -> ~ ends_in_digit n' -> digits_only d -> digits_only d' ->
  n ++ d = n' ++ d' -> n = n' /\ d = d'.
Proof.
  intros N N' D. revert d'. induction d as [|c d IH] using rev_ind; intros d' D' E.
  - destruct d' as [|c' d' _] using rev_ind; [rewrite !app_nil_r in E; auto|]. exfalso. apply N.
    rewrite app_nil_r, app_assoc in E. exists (n' ++ d'), c'. split; [exact E|].
    apply Forall_app in D' as [_ D']. inversion D'; assumption.
  - apply Forall_app in D as [D Dc]. inversion Dc; subst. destruct d' as [|c' d' _] using rev_ind.
    + exfalso. apply N'. rewrite app_nil_r, app_assoc in E. exists (n ++ d), c. auto.
    + apply Forall_app in D' as [D' Dc']. rewrite !app_assoc in E. apply app_inj_tail in E as [E ->].
      destruct (IH D d' D' E) as [-> ->]. auto.
Qed.

Lemma orderly_labels k h : orderly k h ->
  forall t s t' s', In (t, MSample s) h -> In (t', MSample s') h -> of_kind k s -> of_kind k s' ->
  (label k s = label k s' <-> who k s = who k s').
Proof.
  intros [O1 O2] t s t' s' H H' K K'. specialize (O2 t s t' s' H H' K K').
  destruct (O1 t s H K) as (N & D & P). destruct (O1 t' s' H' K') as (N' & D' & P'). clear O1.
  destruct (int_text_spec _ P) as (T & _ & _). destruct (int_text_spec _ P') as (T' & _ & _).
  split.
  - unfold label, who. destruct k; cbn [id_of]; intros E.
    + apply digit_tail in E as [E1 E2]; auto. apply int_text_inj in E2; auto. congruence.
    + apply digit_tail in E as [E1 E2]; auto. destruct (O2 E2). congruence.
    + apply digit_tail in E as [E1 E2]; auto. destruct (O2 E2). congruence.
    + apply digit_tail in E as [E1 E2]; auto; [|apply Forall_app; auto|apply Forall_app; auto].
      destruct O2 as [Oh Ol]. assert (sm_entity s = sm_entity s' /\ int_text (sm_pid s) = int_text (sm_pid s')) as [Q1 Q2].
      { revert Ol E2. clear. generalize (sm_entity s), (sm_entity s'). intros a. induction a as [|x a IH]; intros [|y b] L E; cbn in *; try discriminate; auto.
        injection E as -> E. injection L as L. destruct (IH b L E) as [-> ->]. auto. }
      apply int_text_inj in Q2; auto. congruence.
    + apply digit_tail in E as [E1 E2]; auto; [|apply Forall_app; auto|apply Forall_app; auto].
      destruct O2 as [Oh Ol]. assert (sm_entity s = sm_entity s' /\ int_text (sm_pid s) = int_text (sm_pid s')) as [Q1 Q2].
      { revert Ol E2. clear. generalize (sm_entity s), (sm_entity s'). intros a. induction a as [|x a IH]; intros [|y b] L E; cbn in *; try discriminate; auto.
        injection E as -> E. injection L as L. destruct (IH b L E) as [-> ->]. auto. }
      apply int_text_inj in Q2; auto. congruence.
  - unfold label, who. destruct k; cbn [id_of]; intros E; injection E; intros; congruence.
Qed.

(** ** When the filters are only changed while they are off *)
Lemma current_app set_of cfg h h2 : (forall t o, In (t, o) h2 -> set_of o = None) -> current set_of cfg (h ++ h2) = current set_of cfg h.
Proof.
  induction h2 as [|[t o] h2 IH] using rev_ind; intros N; [rewrite app_nil_r; reflexivity|].
  rewrite app_assoc, current_snoc. cbn [snd]. rewrite (N t o) by (apply in_app_iff; right; left; reflexivity).
  apply IH. intros t' o' H. apply (N t'). apply in_app_iff; auto.
Qed.
Definition no_state (h : list (Z * mop)) : Prop := forall t b, ~ In (t, MState b) h.
Lemma force_quiet set_of cfg h h2 p : no_state h2 -> (in_force set_of cfg (h ++ h2) p <-> in_force set_of cfg h p).
Proof.
  induction h2 as [|[t o] h2 IH] using rev_ind; intros N; [rewrite app_nil_r; reflexivity|].
  rewrite app_assoc, force_other.
  - apply IH. intros t' b H. apply (N t' b). apply in_app_iff; auto.
  - intros b ->. apply (N t b). apply in_app_iff; right; left; reflexivity.
Qed.
Lemma force_since set_of cfg h0 t0 h1 t1 h2 p : (forall b, set_of (MState b) = None) ->
  no_state h1 -> no_state h2 ->
  (in_force set_of cfg (h0 ++ (t0, MState false) :: h1 ++ (t1, MState true) :: h2) p <->
   listed_pattern (current set_of cfg (h0 ++ (t0, MState false) :: h1)) p).
Proof.
  intros S N1 N2.
  replace (h0 ++ (t0, MState false) :: h1 ++ (t1, MState true) :: h2)
    with (((h0 ++ [(t0, MState false)] ++ h1) ++ [(t1, MState true)]) ++ h2)
    by (rewrite <- !app_assoc; reflexivity).
  rewrite force_quiet by exact N2. rewrite force_on by exact S. rewrite app_assoc, force_quiet by exact N1.
  split; [|rewrite <- app_assoc; auto]. intros [L|F]; [rewrite <- app_assoc in L; exact L|]. destruct (force_off _ _ _ _ _ F).
Qed.
Lemma selects_ext compile (e e' i i' : text -> Prop) n : (forall p, e p <-> e' p) -> (forall p, i p <-> i' p) ->
  (selects compile e i n <-> selects compile e' i' n).
Proof.
  intros E I. unfold selects. setoid_rewrite E. setoid_rewrite I. reflexivity.
Qed.

(** ** Statements of the properties *)
Lemma own_entries_lemma :
  forall compile excl0 incl0 timeout os now ents, upwards (map fst os ++ [now]) -> good_patterns compile excl0 incl0 os ->
  exists m, mon_run compile os (mon_create timeout excl0 incl0) = DOk m /\
    let l := snd (mon_get now ents m) in
    let who_is k w := known compile excl0 incl0 k timeout (fun s => who k s = w) os in
    (asked KProcess ents -> orderly KProcess os -> lists (who_is KProcess) shows_process (now - timeout) (mn_processes l)) /\
    (asked KPublisher ents -> orderly KPublisher os -> lists (who_is KPublisher) (shows_topic (str "publisher")) (now - timeout) (mn_publisher l)) /\
    (asked KSubscriber ents -> orderly KSubscriber os -> lists (who_is KSubscriber) (shows_topic (str "subscriber")) (now - timeout) (mn_subscriber l)) /\
    (asked KServer ents -> orderly KServer os -> lists (who_is KServer) shows_server (now - timeout) (mn_server l)) /\
    (asked KClient ents -> orderly KClient os -> lists (who_is KClient) shows_client (now - timeout) (mn_clients l)).
Proof.
  intros compile excl0 incl0 timeout os now ents U G.
  destruct (listings compile excl0 incl0 timeout os now ents U G) as (m & R & L1 & L2 & L3 & L4 & L5 & _).
  exists m. split; [exact R|]. cbv zeta. repeat split; intros As O; apply lists_who; auto; apply orderly_labels; exact O.
Qed.

Lemma filters_lemma :
  forall compile excl0 incl0 timeout os now name, upwards (map fst os ++ [now]) -> good_patterns compile excl0 incl0 os ->
  exists m b, mon_run compile os (mon_create timeout excl0 incl0) = DOk m /\ admit compile name m = DOk b /\
    (* never touched *)
    (no_state os -> (b = true <-> selects compile (listed_pattern excl0) (listed_pattern incl0) name)) /\
    (* switched off, then on again *)
    (forall h0 t0 h1 t1 h2, os = h0 ++ (t0, MState false) :: h1 ++ (t1, MState true) :: h2 -> no_state h1 -> no_state h2 ->
       let h := h0 ++ (t0, MState false) :: h1 in
       (b = true <-> selects compile (listed_pattern (current set_excl_of excl0 h)) (listed_pattern (current set_incl_of incl0 h)) name)) /\
    (* switched off *)
    (forall h0 t0 h1, os = h0 ++ (t0, MState false) :: h1 -> no_state h1 -> b = true).
Proof.
  intros compile excl0 incl0 timeout os now name U G.
  destruct (admits compile excl0 incl0 timeout os now name U G) as (m & b & R & E & Q).
  exists m, b. split; [exact R|]. split; [exact E|]. split; [|split].
  - intros N. rewrite Q. unfold selected. apply selects_ext; intros p.
    + rewrite <- (force_start set_excl_of). apply (force_quiet set_excl_of excl0 [] os). exact N.
    + rewrite <- (force_start set_incl_of). apply (force_quiet set_incl_of incl0 [] os). exact N.
  - intros h0 t0 h1 t1 h2 -> N1 N2 h. rewrite Q. unfold selected, h. apply selects_ext; intros p; apply force_since; auto; reflexivity.
  - intros h0 t0 h1 -> N1. apply Q.
    assert (forall set_of cfg p, ~ in_force set_of cfg (h0 ++ (t0, MState false) :: h1) p) as F.
    { intros set_of cfg p F. replace (h0 ++ (t0, MState false) :: h1) with ((h0 ++ [(t0, MState false)]) ++ h1) in F by (rewrite <- app_assoc; reflexivity).
      rewrite force_quiet in F by exact N1. exact (force_off _ _ _ _ _ F). }
    split.
    + intros p Hp. destruct (F _ _ _ Hp).
    + left. intros p. apply F.
Qed.

Lemma hosts_lemma :
  forall compile k, exists s1 s2 m, sm_host s1 <> sm_host s2 /\ sm_pid s1 = sm_pid s2 /\ called k s1 = called k s2 /\ id_of k s1 = id_of k s2 /\
    sm_cmd s1 = announces k /\ sm_cmd s2 = announces k /\
    mon_run compile [(0%Z, MSample s1); (0%Z, MSample s2)] (mon_create 10 [] []) = DOk m /\
    number_of k (snd (mon_get 0 63 m)) = 1%nat.
Proof.
  intros compile k. exists (somebody (announces k) (str "h1") 23 (str "x") (str "7")), (somebody (announces k) (str "h2") 23 (str "x") (str "7")).
  destruct k; (eexists; split; [vm_compute; discriminate|]; repeat (split; [vm_compute; reflexivity|]); vm_compute; reflexivity).
Qed.
Lemma hosts_withdraw_lemma :
  forall compile k, exists s1 s2 m, sm_host s1 <> sm_host s2 /\ sm_cmd s1 = announces k /\ sm_cmd s2 = withdraws k /\
    mon_run compile [(0%Z, MSample s1); (0%Z, MSample s2)] (mon_create 10 [] []) = DOk m /\
    number_of k (snd (mon_get 0 63 m)) = 0%nat.
Proof.
  intros compile k. exists (somebody (announces k) (str "h1") 23 (str "x") (str "7")), (somebody (withdraws k) (str "h2") 23 (str "x") (str "7")).
  destruct k; (eexists; split; [vm_compute; discriminate|]; repeat (split; [vm_compute; reflexivity|]); vm_compute; reflexivity).
Qed.
Lemma joined_lemma :
  forall compile k, exists s1 s2 m, sm_host s1 = sm_host s2 /\ called k s1 <> called k s2 /\ (sm_pid s1, id_of k s1) <> (sm_pid s2, id_of k s2) /\
    sm_cmd s1 = announces k /\ sm_cmd s2 = announces k /\
    mon_run compile [(0%Z, MSample s1); (0%Z, MSample s2)] (mon_create 10 [] []) = DOk m /\
    number_of k (snd (mon_get 0 63 m)) = 1%nat.
Proof.
  intros compile k. exists (somebody (announces k) (str "h") (match k with KProcess => 23 | _ => 5 end) (str "x1") (str "23")),
    (somebody (announces k) (str "h") (match k with KProcess => 3 | _ => 5 end) (str "x12") (str "3")).
  destruct k; (eexists; split; [vm_compute; reflexivity|]; split; [vm_compute; discriminate|]; split; [vm_compute; discriminate|];
    repeat (split; [vm_compute; reflexivity|]); vm_compute; reflexivity).
Qed.
Lemma joined_service_lemma :
  forall compile k, k = KServer \/ k = KClient ->
  exists s1 s2 m, sm_host s1 = sm_host s2 /\ called k s1 = called k s2 /\ ~ ends_in_digit (called k s1) /\
    sm_entity s1 <> sm_entity s2 /\ sm_pid s1 <> sm_pid s2 /\
    sm_cmd s1 = announces k /\ sm_cmd s2 = announces k /\
    mon_run compile [(0%Z, MSample s1); (0%Z, MSample s2)] (mon_create 10 [] []) = DOk m /\
    number_of k (snd (mon_get 0 63 m)) = 1%nat.
Proof.
  intros compile k H. exists (somebody (announces k) (str "h") 23 (str "x") (str "1")), (somebody (announces k) (str "h") 3 (str "x") (str "12")).
  assert (~ ends_in_digit (str "x")) as N.
  { intros (a & c & E & D). change (str "x") with ([] ++ [120%Z]) in E. apply app_inj_tail in E as [_ <-]. lia. }
  destruct H as [-> | ->]; (eexists; split; [vm_compute; reflexivity|]; split; [vm_compute; reflexivity|]; split; [exact N|];
    split; [vm_compute; discriminate|]; split; [vm_compute; discriminate|];
    repeat (split; [vm_compute; reflexivity|]); vm_compute; reflexivity).
Qed.

Lemma listed_iff f ps : mon_tokens f = ps -> forall p, listed_pattern f p <-> In p ps.
Proof. intros <- p. symmetry. apply tokens_spec. Qed.

Lemma stale_filter_lemma :
  forall compile f g, compile (str "a") = Some f -> compile (str "b") = Some g -> f (str "a") = true -> g (str "a") = false ->
  let os := [(0%Z, MExcl (str "b")); (0%Z, MState true)] in
  selects compile (listed_pattern (current set_excl_of (str "a") os)) (listed_pattern (current set_incl_of [] os)) (str "a") /\
  exists m, mon_run compile os (mon_create 10 (str "a") []) = DOk m /\ admit compile (str "a") m = DOk false.
Proof.
  intros compile f g Cf Cg Ff Gg os. split.
  - split.
    + intros p L. change (current set_excl_of (str "a") os) with (str "b") in L.
      rewrite (listed_iff (str "b") [str "b"] eq_refl) in L. destruct L as [<-|[]]. intros (g' & E & M). congruence.
    + left. intros p L. change (current set_incl_of [] os) with (@nil Z) in L.
      rewrite (listed_iff [] [] eq_refl) in L. destruct L.
  - eexists. split; [vm_compute; reflexivity|]. unfold admit. cbn [mo_excl any_match].
    change [97%Z] with (str "a"). rewrite Cf, Ff. reflexivity.
Qed.
Lemma case_filter_lemma :
  forall compile f g, compile (str "\d+") = Some f -> compile (str "\D+") = Some g -> f (str "abc") = false -> g (str "abc") = true ->
  selects compile (listed_pattern []) (listed_pattern (str "\d+,\D+")) (str "abc") /\
  admit compile (str "abc") (mon_create 10 [] (str "\d+,\D+")) = DOk false.
Proof.
  intros compile f g Cf Cg Ff Gg. split.
  - split.
    + intros p L. rewrite (listed_iff [] [] eq_refl) in L. destruct L.
    + right. exists (str "\D+"). split; [|exists g; auto].
      rewrite (listed_iff (str "\d+,\D+") [str "\d+"; str "\D+"] eq_refl). right; left; reflexivity.
  - unfold admit. change (mo_excl (mon_create 10 [] (str "\d+,\D+"))) with (@nil text).
    change (mo_incl (mon_create 10 [] (str "\d+,\D+"))) with [str "\d+"]. cbn [any_match dbind]. rewrite Cf, Ff. reflexivity.
Qed.
Lemma comma_filter_lemma :
  forall compile s now, compile (str "a{1") = None -> (forall f, compile (str "3}") = Some f -> f (tp_tname (sm_topic s)) = false) ->
  sm_cmd s = bct_reg_publisher \/ sm_cmd s = bct_reg_subscriber ->
  mon_run compile [(now, MSample s)] (mon_create 10 [] (str "a{1,3}")) = DThrow /\
  mon_run compile [(now, MSample s)] (mon_create 10 (str "a{1,3}") []) = DThrow.
Proof.
  intros compile s now C F H. cbn [mon_run mon_step]. unfold mon_apply, reg_pub, reg_sub, admit.
  change (mo_incl (mon_create 10 [] (str "a{1,3}"))) with [str "3}"; str "a{1"].
  change (mo_excl (mon_create 10 [] (str "a{1,3}"))) with (@nil text).
  change (mo_excl (mon_create 10 (str "a{1,3}") [])) with [str "3}"; str "a{1"].
  cbn [any_match dbind]. rewrite C. destruct (compile (str "3}")) as [f|].
  - rewrite (F f eq_refl). destruct H as [-> | ->]; split; reflexivity.
  - destruct H as [-> | ->]; split; reflexivity.
Qed.

Lemma literal_good excl0 incl0 os : good_patterns literal excl0 incl0 os.
Proof.
  split; [discriminate|]. intros p q _ _ E n. apply same_letters_iff in E.
  split; intros (f & C & M); unfold literal in *; injection C as <-; eexists; (split; [reflexivity|]); cbv beta in *;
    [rewrite <- E|rewrite E]; exact M.
Qed.
