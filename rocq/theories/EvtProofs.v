(** Proofs about events. *)
From Verif Require Import Base EvtModel EvtSpec.

Lemma ephase_set s c p x : ephase_of (set_ephase s c p) x = if Nat.eqb x c then p else ephase_of s x.
Proof.
  unfold ephase_of, set_ephase; cbn. rewrite aget_aset. unfold eqb.
  destruct (eq_dec x c) as [->|N]; [rewrite Nat.eqb_refl; reflexivity|].
  destruct (Nat.eqb_spec x c); [contradiction|reflexivity].
Qed.
Lemma ephase_file s id f x : ephase_of (set_efile s id f) x = ephase_of s x.
Proof. reflexivity. Qed.

Definition ephase_ok (s : esys) (id : nat) (f : efile) (c : nat) : Prop :=
  match ephase_of s c with
  | EAbsent => True
  | EMissing _ | ENull _ => False
  | ECreating _ j b => j = id /\ ef_sized f = b /\ ef_set f = false /\ (forall x, x <> c -> ephase_of s x = EAbsent)
  | EOpened _ j _ => j = id /\ ef_sized f = true
  end.
Definition EInv (s : esys) (p : bool) : Prop :=
  match es_link s with
  | None => p = false /\ (forall c, ephase_of s c = EAbsent \/ exists ow, ephase_of s c = EMissing ow) /\
            (forall c1 c2 o1 o2, ephase_of s c1 = EMissing o1 -> ephase_of s c2 = EMissing o2 -> c1 = c2)
  | Some id => exists f, aget id (es_files s) = Some f /\ (forall c, ephase_ok s id f c) /\ ef_set f = p /\
                 (ef_sized f = true \/ exists ow c b, ephase_of s c = ECreating ow id b)
  end.
Lemma einv_init : EInv esys_init false.
Proof. cbn. repeat split; intros; cbn in *; [left; reflexivity|discriminate]. Qed.

Lemma eopened_inv s p c ow id w : EInv s p -> ephase_of s c = EOpened ow id w ->
  es_link s = Some id /\ exists f, aget id (es_files s) = Some f /\ ef_sized f = true /\
    (forall x, ephase_ok s id f x) /\ ef_set f = p.
Proof.
  unfold EInv. destruct (es_link s) as [j|].
  - intros (f & F & P & L & _) E. pose proof (P c) as Pc. unfold ephase_ok in Pc. rewrite E in Pc.
    destruct Pc as [-> Z]. split; [reflexivity|]. exists f. auto.
  - intros (_ & Q & _) E. destruct (Q c) as [C|(o & C)]; congruence.
Qed.
Lemma eall_opened s id f c ow w :
  (forall x, ephase_ok s id f x) -> ephase_of s c = EOpened ow id w ->
  forall x, ephase_of s x = EAbsent \/ exists ow w, ephase_of s x = EOpened ow id w.
Proof.
  intros P E x. pose proof (P x) as Px. unfold ephase_ok in Px.
  destruct (ephase_of s x) as [|o|o j b|o|o j v] eqn:Ex; auto; try tauto.
  - destruct Px as (_ & _ & _ & Q). destruct (Nat.eq_dec c x) as [->|N]; [congruence|]. rewrite (Q c N) in E. discriminate.
  - destruct Px as [-> _]. right. eauto.
Qed.

Lemma eupdate_inv s id f c ow w f' w' :
  es_link s = Some id -> aget id (es_files s) = Some f -> (forall x, ephase_ok s id f x) ->
  ephase_of s c = EOpened ow id w -> ef_sized f' = true ->
  forall s', es_link s' = Some id -> aget id (es_files s') = Some f' ->
  (forall x, ephase_of s' x = if Nat.eqb x c then EOpened ow id w' else ephase_of s x) ->
  EInv s' (ef_set f').
Proof.
  intros L F P E Z s' L' F' PH. unfold EInv. rewrite L'. exists f'. split; [exact F'|].
  split; [|split; [reflexivity|left; exact Z]].
  intros x. unfold ephase_ok. rewrite PH. destruct (Nat.eqb_spec x c); [auto|].
  destruct (eall_opened s id f c ow w P E x) as [Q|(o & v & Q)]; rewrite Q; auto.
Qed.

Lemma estep_inv R s op p : (forall r, R r = true) -> EInv s p -> (forall r, R r = true -> erule_ok r s op) ->
  exists s' r, e_step op s = Some (s', r) /\ EInv s' (pending_step p (op, r)).
Proof.
  intros HR I OK. assert (N : forall r, erule_ok r s op) by auto. clear OK HR R.
  destruct op as [c ow|c|c|c|c|c try|c|c|c]; cbn [e_step].
  - destruct (ephase_of s c) eqn:Ec; try (exists s, VRefused; split; [reflexivity|exact I]).
    pose proof (N KCreate) as NC. cbn [erule_ok] in NC. unfold EInv in I. destruct (es_link s) as [id|] eqn:L.
    + destruct I as (f & F & P & S & Z). eexists _, _. split; [reflexivity|]. unfold EInv.
      cbn [es_link set_ephase pending_step]. rewrite L. exists f. split; [exact F|].
      assert (NCr : forall x o j b, ephase_of s x <> ECreating o j b) by (intros x o j b E; specialize (NC x); rewrite E in NC; discriminate).
      assert (Z' : ef_sized f = true) by (destruct Z as [Z|(o & x & b & Z)]; [exact Z|destruct (NCr _ _ _ _ Z)]).
      split; [|auto]. intros x. unfold ephase_ok. rewrite (ephase_set s). destruct (Nat.eqb_spec x c); [auto|].
      specialize (P x). unfold ephase_ok in P. destruct (ephase_of s x) eqn:Ex; auto. destruct (NCr _ _ _ _ Ex).
    + destruct I as (-> & Q & U). eexists _, _. split; [reflexivity|]. unfold EInv.
      cbn [es_link set_ephase pending_step]. rewrite L. split; [reflexivity|].
      assert (NM : forall x o, ephase_of s x <> EMissing o) by (intros x o E; specialize (NC x); rewrite E in NC; discriminate).
      split.
      * intros x. rewrite ephase_set. destruct (Nat.eqb_spec x c); [right; eauto|apply Q].
      * intros x y o1 o2. rewrite !ephase_set. destruct (Nat.eqb_spec x c), (Nat.eqb_spec y c); intros; subst; auto;
          exfalso; eapply NM; eauto.
  - destruct (ephase_of s c) as [|ow| | |] eqn:Ec; try (exists s, VRefused; split; [reflexivity|exact I]).
    unfold EInv in I. destruct (es_link s) as [id|] eqn:L.
    + destruct I as (f & F & P & _). specialize (P c). unfold ephase_ok in P. rewrite Ec in P. destruct P.
    + destruct I as (-> & Q & U). eexists _, _. split; [reflexivity|]. unfold EInv. cbn [es_link pending_step].
      assert (PH : forall x, ephase_of (ESys (S (es_next s)) (aset (es_next s) (EFile false false) (es_files s)) (Some (es_next s))
                       (aset c (ECreating ow (es_next s) false) (es_cls s))) x = if Nat.eqb x c then ECreating ow (es_next s) false else ephase_of s x).
      { intros x. apply (ephase_set s c (ECreating ow (es_next s) false) x). }
      assert (QU : forall x, x <> c -> ephase_of s x = EAbsent).
      { intros x Nx. destruct (Q x) as [E|(o & E)]; [exact E|]. exfalso. apply Nx. eapply U; eassumption. }
      eexists. split; [apply aget_aset_same|]. split; [|split; [reflexivity|]].
      * intros x. unfold ephase_ok. rewrite PH. destruct (Nat.eqb_spec x c) as [->|Nx].
        -- repeat split; auto. intros y Ny. rewrite PH. destruct (Nat.eqb_spec y c); [contradiction|auto].
        -- rewrite (QU x Nx). exact Logic.I.
      * right. exists ow, c, false. rewrite PH, Nat.eqb_refl. reflexivity.
  - destruct (ephase_of s c) as [| |ow id b| |] eqn:Ec; try (exists s, VRefused; split; [reflexivity|exact I]).
    destruct b; [exists s, VRefused; split; [reflexivity|exact I]|].
    unfold EInv in I. destruct (es_link s) as [j|] eqn:L.
    2: { destruct I as (_ & Q & _). destruct (Q c) as [E|(o & E)]; congruence. }
    destruct I as (f & F & P & S & Z). pose proof (P c) as Pc. unfold ephase_ok in Pc. rewrite Ec in Pc.
    destruct Pc as (-> & Zf & Sf & Q). rewrite F. eexists _, _. split; [reflexivity|]. unfold EInv.
    cbn [es_link set_ephase set_efile pending_step]. rewrite L. eexists. split; [apply aget_aset_same|].
    split; [|auto]. intros x. unfold ephase_ok. rewrite (ephase_set (set_efile s j _)), ephase_file.
    destruct (Nat.eqb_spec x c) as [->|Nx].
    + repeat split; auto. intros y Ny. rewrite (ephase_set (set_efile s j _)), ephase_file.
      destruct (Nat.eqb_spec y c); [contradiction|auto].
    + rewrite (Q x Nx). exact Logic.I.
  - destruct (ephase_of s c) as [| |ow id b| |] eqn:Ec; try (exists s, VRefused; split; [reflexivity|exact I]).
    destruct b; [|exists s, VRefused; split; [reflexivity|exact I]].
    unfold EInv in I. destruct (es_link s) as [j|] eqn:L.
    2: { destruct I as (_ & Q & _). destruct (Q c) as [E|(o & E)]; congruence. }
    destruct I as (f & F & P & S & Z). pose proof (P c) as Pc. unfold ephase_ok in Pc. rewrite Ec in Pc.
    destruct Pc as (-> & Zf & Sf & Q). rewrite F. eexists _, _. split; [reflexivity|]. unfold EInv.
    cbn [es_link set_ephase set_efile pending_step]. rewrite L. eexists. split; [apply aget_aset_same|].
    split; [|split; [|left; exact Zf]].
    + intros x. unfold ephase_ok. rewrite (ephase_set (set_efile s j _)), ephase_file.
      destruct (Nat.eqb_spec x c) as [->|Nx]; [auto|]. rewrite (Q x Nx). exact Logic.I.
    + cbn [ef_set]. congruence.
  - destruct (ephase_of s c) as [| | |ow|ow id w] eqn:Ec; try (exists s, VRefused; split; [reflexivity|exact I]).
    { exfalso. unfold EInv in I. destruct (es_link s) as [j|].
      - destruct I as (f & F & P & _). specialize (P c). unfold ephase_ok in P. rewrite Ec in P. exact P.
      - destruct I as (_ & Q & _). destruct (Q c) as [E|(o & E)]; congruence. }
    destruct w; [exists s, VRefused; split; [reflexivity|exact I]|].
    destruct (eopened_inv s p c ow id false I Ec) as (L & f & F & Z & P & S).
    rewrite F, Z. cbn [negb]. eexists _, _. split; [reflexivity|]. cbn [pending_step].
    change true with (ef_set (EFile true true)).
    apply (eupdate_inv s id f c ow false (EFile true true) false L F P Ec eq_refl); [exact L|apply aget_aset_same|].
    intros x. rewrite ephase_file. destruct (Nat.eqb_spec x c); congruence.
  - destruct (ephase_of s c) as [| | |ow|ow id w] eqn:Ec; try (exists s, VRefused; split; [reflexivity|exact I]).
    { exists s, (VGot false). split; [reflexivity|exact I]. }
    destruct w; [exists s, VRefused; split; [reflexivity|exact I]|].
    destruct (eopened_inv s p c ow id false I Ec) as (L & f & F & Z & P & S).
    rewrite F, Z. cbn [negb]. destruct (ef_set f) eqn:Sf.
    + eexists _, _. split; [reflexivity|]. cbn [pending_step].
      change false with (ef_set (EFile true false)) at 2.
      apply (eupdate_inv s id f c ow false (EFile true false) false L F P Ec eq_refl); [exact L|apply aget_aset_same|].
      intros x. rewrite ephase_file. destruct (Nat.eqb_spec x c); congruence.
    + destruct try; eexists _, _; (split; [reflexivity|]); cbn [pending_step]; [exact I|].
      rewrite <- S, <- Sf. apply (eupdate_inv s id f c ow false f true L F P Ec Z); [exact L|exact F|].
      intros x. apply ephase_set.
  - destruct (ephase_of s c) as [| | |ow|ow id w] eqn:Ec; try (exists s, VRefused; split; [reflexivity|exact I]).
    destruct w; [|exists s, VRefused; split; [reflexivity|exact I]].
    destruct (eopened_inv s p c ow id true I Ec) as (L & f & F & Z & P & S).
    rewrite F. destruct (ef_set f) eqn:Sf.
    + eexists _, _. split; [reflexivity|]. cbn [pending_step].
      change false with (ef_set (EFile (ef_sized f) false)) at 3.
      apply (eupdate_inv s id f c ow true (EFile (ef_sized f) false) false L F P Ec Z); [exact L|apply aget_aset_same|].
      intros x. rewrite (ephase_set (set_efile s id _)), ephase_file. reflexivity.
    + exists s, VBlocked. split; [reflexivity|exact I].
  - destruct (ephase_of s c) as [| | |ow|ow id w] eqn:Ec; try (exists s, VRefused; split; [reflexivity|exact I]).
    destruct w; [|exists s, VRefused; split; [reflexivity|exact I]].
    destruct (eopened_inv s p c ow id true I Ec) as (L & f & F & Z & P & S).
    eexists _, _. split; [reflexivity|]. cbn [pending_step]. rewrite <- S.
    apply (eupdate_inv s id f c ow true f false L F P Ec Z); [exact L|exact F|]. intros x. apply ephase_set.
  - destruct (ephase_of s c) as [| | |ow|ow id w] eqn:Ec; try (exists s, VRefused; split; [reflexivity|exact I]).
    { exfalso. unfold EInv in I. destruct (es_link s) as [j|].
      - destruct I as (f & F & P & _). specialize (P c). unfold ephase_ok in P. rewrite Ec in P. exact P.
      - destruct I as (_ & Q & _). destruct (Q c) as [E|(o & E)]; congruence. }
    destruct w; [exists s, VRefused; split; [reflexivity|exact I]|].
    destruct (eopened_inv s p c ow id false I Ec) as (L & f & F & Z & P & S).
    pose proof (eall_opened s id f c ow false P Ec) as QO.
    destruct ow; (eexists _, _; split; [reflexivity|]); cbn [pending_step].
    + pose proof (N KOwner) as NO. cbn [erule_ok] in NO. specialize (NO (ex_intro _ id (ex_intro _ false Ec))).
      unfold EInv. cbn [es_link]. split; [reflexivity|].
      assert (PH : forall x, ephase_of (ESys (es_next (set_ephase s c EAbsent)) (es_files (set_ephase s c EAbsent)) None (es_cls (set_ephase s c EAbsent))) x = EAbsent).
      { intros x. transitivity (if Nat.eqb x c then EAbsent else ephase_of s x); [apply (ephase_set s c EAbsent x)|].
        destruct (Nat.eqb_spec x c); auto. }
      split; [intros x; left; apply PH|]. intros x y o1 o2 Ex. rewrite PH in Ex. discriminate.
    + unfold EInv. cbn [es_link set_ephase]. rewrite L. exists f. split; [exact F|]. split; [|auto].
      intros x. unfold ephase_ok. rewrite (ephase_set s). destruct (Nat.eqb_spec x c); [exact Logic.I|].
      destruct (QO x) as [E|(o & v & E)]; rewrite E; auto.
Qed.

Lemma pending_app h e : pending (h ++ [e]) = pending_step (pending h) e.
Proof. unfold pending. rewrite fold_left_app. reflexivity. Qed.

Lemma erun_inv ops : forall h s, EInv s (pending h) -> erun_ok all_rules ops s ->
  exists s' rs, e_run ops s = Some (s', rs) /\ EInv s' (pending (h ++ combine ops rs)) /\ length rs = length ops.
Proof.
  induction ops as [|op ops IH]; intros h s I OK.
  - exists s, []. rewrite app_nil_r. auto.
  - cbn [erun_ok] in OK. destruct OK as [O OK].
    destruct (estep_inv all_rules s op _ (fun _ => eq_refl) I O) as (s1 & r & E & I1). rewrite E in OK.
    rewrite <- pending_app in I1. destruct (IH _ _ I1 OK) as (s2 & rs & E2 & I2 & L2).
    exists s2, (r :: rs). cbn [e_run]. rewrite E, E2. split; [reflexivity|]. split.
    + cbn [combine]. rewrite <- app_assoc in I2. exact I2.
    + cbn. f_equal. exact L2.
Qed.
Lemma ereach ops s rs : erun_ok all_rules ops esys_init -> e_run ops esys_init = Some (s, rs) ->
  EInv s (pending (combine ops rs)) /\ length rs = length ops.
Proof.
  intros OK E. destruct (erun_inv ops [] esys_init einv_init OK) as (s' & rs' & E' & I & L).
  rewrite E in E'. injection E' as <- <-. auto.
Qed.
Lemma eno_fault_lemma : forall ops, erun_ok all_rules ops esys_init -> e_run ops esys_init <> None.
Proof. intros ops OK. destruct (erun_inv ops [] esys_init einv_init OK) as (s' & rs' & E' & _). congruence. Qed.

Lemma wait_lemma : forall ops s rs c ow id,
  erun_ok all_rules ops esys_init -> e_run ops esys_init = Some (s, rs) ->
  (ephase_of s c = EOpened ow id false -> forall try, exists s',
     e_step (VWait c try) s = Some (s', if pending (combine ops rs) then VGot true else if try then VGot false else VBlocked)) /\
  (ephase_of s c = EOpened ow id true -> exists s',
     e_step (VWake c) s = Some (s', if pending (combine ops rs) then VGot true else VBlocked)).
Proof.
  intros ops s rs c ow id OK E. destruct (ereach ops s rs OK E) as [I _]. split.
  - intros Ec try. destruct (eopened_inv s _ c ow id false I Ec) as (L & f & F & Z & P & S).
    cbn [e_step]. rewrite Ec, F, Z. cbn [negb]. rewrite S. destruct (pending _); [|destruct try]; eauto.
  - intros Ec. destruct (eopened_inv s _ c ow id true I Ec) as (L & f & F & Z & P & S).
    cbn [e_step]. rewrite Ec, F, S. destruct (pending _); eauto.
Qed.

(** Every successful wait has its own set, whatever the users do in between. *)
Lemma got_le_set_general (h : list (eop * eres)) : forall p,
  (forall h1 e h2, h = h1 ++ e :: h2 -> is_got e = true -> fold_left pending_step h1 p = true) ->
  count is_got h <= count is_set h + (if p then 1 else 0).
Proof.
  unfold count. induction h as [|e h IH]; intros p HG; [cbn; lia|].
  assert (HG1 : is_got e = true -> p = true) by (intros G; apply (HG [] e h eq_refl G)).
  specialize (IH (pending_step p e)).
  assert (IHp : forall h1 e1 h2, h = h1 ++ e1 :: h2 -> is_got e1 = true -> fold_left pending_step h1 (pending_step p e) = true).
  { intros h1 e1 h2 -> G. apply (HG (e :: h1) e1 h2 eq_refl G). }
  specialize (IH IHp). cbn [filter]. 
  assert (PS : pending_step p e = if is_set e then true else if is_got e then false else
                 match e with (VClose _, VClosed true) => false | _ => p end).
  { destruct e as [[] []]; cbn; try reflexivity; try (destruct b; reflexivity); destruct unlinked; reflexivity. }
  rewrite PS in IH. destruct (is_set e) eqn:Es, (is_got e) eqn:Eg; cbn [length].
  - destruct e as [[] []]; discriminate.
  - destruct p; lia.
  - rewrite (HG1 eq_refl). lia.
  - destruct e as [[] []]; try (destruct p; lia). destruct unlinked, p; lia.
Qed.

Lemma erun_ok_prefix R ops1 : forall ops2 s, erun_ok R (ops1 ++ ops2) s -> erun_ok R ops1 s.
Proof.
  induction ops1 as [|op ops1 IH]; intros ops2 s OK; [exact Logic.I|]. cbn in *. destruct OK as [O OK].
  split; [exact O|]. destruct (e_step op s) as [[s' x]|]; eauto.
Qed.
Lemma e_run_split ops1 : forall op ops2 s s' rs1 r rs2,
  length rs1 = length ops1 -> e_run (ops1 ++ op :: ops2) s = Some (s', rs1 ++ r :: rs2) ->
  exists s1 s2, e_run ops1 s = Some (s1, rs1) /\ e_step op s1 = Some (s2, r).
Proof.
  induction ops1 as [|o ops1 IH]; intros op ops2 s s' rs1 r rs2 L E.
  - destruct rs1; [|discriminate]. cbn in E. destruct (e_step op s) as [[s1 x]|] eqn:Es; [|discriminate].
    destruct (e_run ops2 s1) as [[s2 xs]|]; [|discriminate]. injection E as <- -> ->. exists s, s1. auto.
  - destruct rs1 as [|x rs1]; [discriminate|]. cbn in *. destruct (e_step o s) as [[s1 y]|]; [|discriminate].
    destruct (e_run (ops1 ++ op :: ops2) s1) as [[s2 ys]|] eqn:E2; [|discriminate].
    injection E as <- -> ->. injection L as L.
    destruct (IH op ops2 s1 s2 rs1 r rs2 L E2) as (s3 & s4 & A & B). exists s3, s4. rewrite A. auto.
Qed.
Lemma combine_split {A B} (l1 : list A) : forall (l2 : list B) h1 a b h2,
  length l2 = length l1 -> combine l1 l2 = h1 ++ (a, b) :: h2 ->
  exists x1 x2 y1 y2, l1 = x1 ++ a :: x2 /\ l2 = y1 ++ b :: y2 /\ length y1 = length x1 /\ h1 = combine x1 y1.
Proof.
  induction l1 as [|x l1 IH]; intros [|y l2] h1 a b h2 L E; cbn in *; try discriminate.
  - destruct h1; discriminate.
  - destruct h1 as [|e h1]; cbn in E.
    + injection E as -> -> <-. exists [], l1, [], l2. auto.
    + injection E as <- E. destruct (IH l2 h1 a b h2 (eq_add_S _ _ L) E) as (x1 & x2 & y1 & y2 & -> & -> & E1 & ->).
      exists (x :: x1), x2, (y :: y1), y2. cbn. auto.
Qed.

Lemma got_le_set_lemma : forall ops s rs,
  erun_ok all_rules ops esys_init -> e_run ops esys_init = Some (s, rs) ->
  count is_got (combine ops rs) <= count is_set (combine ops rs).
Proof.
  intros ops s rs OK E. destruct (ereach ops s rs OK E) as [_ L].
  pose proof (got_le_set_general (combine ops rs) false) as G. cbn in G.
  replace (count is_set (combine ops rs)) with (count is_set (combine ops rs) + 0) by lia. apply G.
  intros h1 [op r] h2 Eh Gt.
  destruct (combine_split ops rs h1 op r h2 L Eh) as (o1 & o2 & r1 & r2 & -> & -> & L1 & ->).
  destruct (e_run_split o1 op o2 _ _ r1 r r2 L1 E) as (s1 & s2 & E1 & Es).
  apply erun_ok_prefix in OK. destruct (ereach o1 s1 r1 OK E1) as [I _].
  change (pending (combine o1 r1) = true).
  destruct op; cbn in Gt; (destruct r as [| |b| |]; try discriminate; destruct b; try discriminate);
    try (exfalso; revert Es; clear; cbn [e_step]; repeat (match goal with |- context [match ?x with _ => _ end] => destruct x end; try discriminate); discriminate).
  - cbn [e_step] in Es. destruct (ephase_of s1 c) as [| | |ow|ow id w] eqn:Ec; try discriminate.
    destruct w; [discriminate|]. destruct (eopened_inv s1 _ c ow id false I Ec) as (_ & f & F & Z & _ & S).
    rewrite F, Z in Es. cbn [negb] in Es. rewrite S in Es. destruct (pending _); [reflexivity|]. destruct try; discriminate.
  - cbn [e_step] in Es. destruct (ephase_of s1 c) as [| | |ow|ow id w] eqn:Ec; try discriminate.
    destruct w; [|discriminate]. destruct (eopened_inv s1 _ c ow id true I Ec) as (_ & f & F & Z & _ & S).
    rewrite F, S in Es. destruct (pending _); [reflexivity|discriminate].
Qed.

(** A check for concrete runs. *)
Definition erule_okb (r : erule) (s : esys) (op : eop) : bool :=
  match r, op with
  | KCreate, VOpen _ _ => forallb (fun p => negb (ecreating (snd p))) (es_cls s)
  | KOwner, VClose c => match ephase_of s c with
                        | EOpened true _ _ => forallb (fun p => Nat.eqb (fst p) c || match snd p with EAbsent => true | _ => false end) (es_cls s)
                        | _ => true
                        end
  | _, _ => true
  end.
Fixpoint erun_okb (R : erule -> bool) (ops : list eop) (s : esys) : bool :=
  match ops with
  | [] => true
  | op :: ops' =>
      forallb (fun r => negb (R r) || erule_okb r s op) [KCreate; KOwner] &&
      match e_step op s with Some (s', x) => erun_okb R ops' s' | None => true end
  end.
Lemma erule_okb_sound r s op : erule_okb r s op = true -> erule_ok r s op.
Proof.
  destruct r, op; cbn; try (intros; exact Logic.I).
  - rewrite forallb_forall. intros F x. unfold ephase_of. destruct (aget x (es_cls s)) as [p|] eqn:E; [|reflexivity].
    apply aget_in in E. specialize (F _ E). cbn in F. destruct (ecreating p); [discriminate|reflexivity].
  - intros F (id & w & E) x N. rewrite E in F. rewrite forallb_forall in F. unfold ephase_of.
    destruct (aget x (es_cls s)) as [p|] eqn:Ex; [|auto]. apply aget_in in Ex. specialize (F _ Ex). cbn in F.
    destruct (Nat.eqb_spec x c); [contradiction|]. destruct p; try discriminate; auto.
Qed.
Lemma erun_okb_sound R ops : forall s, erun_okb R ops s = true -> erun_ok R ops s.
Proof.
  induction ops as [|op ops IH]; intros s E; [exact Logic.I|]. cbn [erun_okb erun_ok] in *.
  apply andb_true_iff in E. destruct E as [E1 E2]. split.
  - rewrite forallb_forall in E1. intros r Hr. apply erule_okb_sound. specialize (E1 r). rewrite Hr in E1. cbn [negb orb] in E1.
    apply E1. destruct r; cbn; tauto.
  - destruct (e_step op s) as [[s' x]|]; [auto|exact Logic.I].
Qed.
Ltac erun_solve := apply erun_okb_sound; vm_compute; reflexivity.

Lemma lost_set_counterexample : exists ops s rs, erun_ok but_create ops esys_init /\
  e_run ops esys_init = Some (s, rs) /\ pending (combine ops rs) = true /\
  ephase_of s 1 = EOpened true 0 false /\ e_step (VWait 1 true) s = Some (s, VGot false).
Proof.
  exists [VOpen 1 true; VExcl 1; VTrunc 1; VOpen 2 false; VSet 2; VInit 1]. eexists _, _.
  split; [erun_solve|]. repeat split; vm_compute; reflexivity.
Qed.
Lemma null_counterexample : exists ops s rs, erun_ok but_create ops esys_init /\
  e_run ops esys_init = Some (s, rs) /\ (exists o, ephase_of s 2 = ENull o) /\ ephase_of s 1 = EOpened true 0 false /\
  e_step (VSet 2) s = Some (s, VDone) /\ e_step (VWait 2 false) s = Some (s, VGot false).
Proof.
  exists [VOpen 1 true; VOpen 2 false; VExcl 1; VExcl 2; VTrunc 1; VInit 1]. eexists _, _.
  split; [erun_solve|]. split; [vm_compute; reflexivity|]. split; [exists false|repeat split]; vm_compute; reflexivity.
Qed.
Lemma efault_counterexample : exists ops, erun_ok but_create ops esys_init /\ e_run ops esys_init = None.
Proof. exists [VOpen 1 true; VExcl 1; VOpen 2 false; VSet 2]. split; [erun_solve|]. vm_compute. reflexivity. Qed.
Lemma eowner_counterexample : exists ops s rs, erun_ok but_owner ops esys_init /\
  e_run ops esys_init = Some (s, rs) /\ pending (combine ops rs) = true /\
  (exists id, ephase_of s 2 = EOpened false id false) /\ e_step (VWait 2 true) s = Some (s, VGot false).
Proof.
  exists [VOpen 1 true; VExcl 1; VTrunc 1; VInit 1; VOpen 2 false; VClose 1; VOpen 3 true; VExcl 3; VTrunc 3; VInit 3; VSet 3]. eexists _, _.
  split; [erun_solve|]. split; [vm_compute; reflexivity|]. split; [vm_compute; reflexivity|].
  split; [exists 0|]; vm_compute; reflexivity.
Qed.

(** ** Unnamed events *)
Lemma u_step_inv op s n : us_count s = n -> (0 <= n)%Z ->
  let (s', r) := u_step op s in
  let n' := (n + match op with USet => 1 | _ => 0 end - match r with UGot true => 1 | _ => 0 end)%Z in
  (n' < 2 ^ 32)%Z -> us_count s' = n' /\ (0 <= n')%Z.
Proof.
  intros E P. destruct op; cbn [u_step].
  - cbn. unfold uint_wrap. intros B. rewrite E, Z.mod_small; lia.
  - destruct (existsb _ _); [cbn; lia|]. destruct (Z.ltb_spec 0 (us_count s)); [cbn; lia|]. destruct try; cbn; lia.
  - destruct (negb _); [cbn; lia|]. destruct (Z.ltb_spec 0 (us_count s)); cbn; lia.
  - destruct (negb _); [cbn; lia|]. destruct (Z.ltb_spec 0 (us_count s)); cbn; lia.
Qed.
Lemma u_run_inv ops : forall s n, us_count s = n -> (0 <= n)%Z -> urun_ok n ops s ->
  let (s', rs) := u_run ops s in us_count s' = (n + outstanding (combine ops rs))%Z /\ (0 <= n + outstanding (combine ops rs))%Z.
Proof.
  induction ops as [|op ops IH]; intros s n E P OK; cbn [u_run].
  - cbn. rewrite E. unfold outstanding; cbn; lia.
  - cbn [urun_ok] in OK. pose proof (u_step_inv op s n E P) as ST. destruct (u_step op s) as [s1 r].
    cbv zeta in OK, ST. destruct OK as [B OK]. destruct (ST B) as [E1 P1]. specialize (IH s1 _ E1 P1 OK).
    destruct (u_run ops s1) as [s2 rs]. cbn [combine].
    assert (EO : outstanding ((op, r) :: combine ops rs) = (match op with USet => 1 | _ => 0 end - match r with UGot true => 1 | _ => 0 end + outstanding (combine ops rs))%Z).
    { unfold outstanding, count. cbn [filter u_is_set u_is_got snd].
      destruct op; destruct r as [|[]| |]; cbn [filter u_is_set u_is_got snd length]; lia. }
    rewrite EO. clear EO OK B ST. revert IH. generalize (match op with USet => 1 | _ => 0 end)%Z (match r with UGot true => 1 | _ => 0 end)%Z (outstanding (combine ops rs)). intros; lia.
Qed.
Lemma u_granted_lemma : forall ops s rs c,
  urun_ok 0 ops usys_init -> u_run ops usys_init = (s, rs) ->
  (0 <= outstanding (combine ops rs))%Z /\
  (~ In c (us_waiting s) -> forall try, snd (u_step (UWait c try) s)
     = if (0 <? outstanding (combine ops rs))%Z then UGot true else if try then UGot false else UBlocked) /\
  (In c (us_waiting s) ->
     snd (u_step (UWake c) s) = (if (0 <? outstanding (combine ops rs))%Z then UGot true else UBlocked) /\
     snd (u_step (UTimeout c) s) = (if (0 <? outstanding (combine ops rs))%Z then UGot true else UGot false)).
Proof.
  intros ops s rs c OK E. pose proof (u_run_inv ops usys_init 0 eq_refl (Z.le_refl 0) OK) as H. rewrite E in H.
  destruct H as [H1 H2]. split; [lia|]. rewrite Z.add_0_l in H1. split.
  - intros NI try. cbn [u_step].
    assert (X : existsb (Nat.eqb c) (us_waiting s) = false).
    { apply not_true_iff_false. intros X. apply existsb_exists in X. destruct X as (x & I & X). apply Nat.eqb_eq in X. subst. auto. }
    rewrite X, H1. destruct (0 <? outstanding (combine ops rs))%Z; [reflexivity|]. destruct try; reflexivity.
  - intros I.
    assert (X : existsb (Nat.eqb c) (us_waiting s) = true) by (apply existsb_exists; exists c; rewrite Nat.eqb_refl; auto).
    cbn [u_step]. rewrite X, H1. cbn [negb]. destruct (0 <? outstanding (combine ops rs))%Z; auto.
Qed.
Lemma u_sets n : forall s, (0 <= us_count s < 2 ^ 32)%Z ->
  u_run (repeat USet n) s = (USys (uint_wrap (us_count s + Z.of_nat n)) (us_waiting s), repeat UDone n).
Proof.
  induction n as [|n IH]; intros s B; cbn [repeat u_run].
  - unfold uint_wrap. rewrite Z.add_0_r, Z.mod_small by lia. destruct s; reflexivity.
  - cbn [u_step]. rewrite IH; cbn [us_count us_waiting].
    + unfold uint_wrap. rewrite Zplus_mod_idemp_l.
      replace (us_count s + 1 + Z.of_nat n)%Z with (us_count s + Z.of_nat (S n))%Z by lia. reflexivity.
    + unfold uint_wrap. apply Z.mod_pos_bound. lia.
Qed.
Lemma u_overflow_counterexample : exists ops s rs, u_run ops usys_init = (s, rs) /\
  outstanding (combine ops rs) = (2 ^ 32)%Z /\ u_step (UWait 1 true) s = (s, UGot false).
Proof.
  exists (repeat USet (Z.to_nat (2 ^ 32))). eexists _, _. split; [apply u_sets; cbn; lia|]. split.
  - unfold outstanding, count.
    assert (G : forall n, filter u_is_set (combine (repeat USet n) (repeat UDone n)) = combine (repeat USet n) (repeat UDone n)
                 /\ filter u_is_got (combine (repeat USet n) (repeat UDone n)) = []).
    { induction n as [|n [A B]]; [split; reflexivity|]. cbn [repeat combine filter u_is_set u_is_got snd].
      split; [f_equal; exact A|exact B]. }
    destruct (G (Z.to_nat (2 ^ 32))) as [-> ->]. rewrite combine_length, !repeat_length, Nat.min_id.
    rewrite Z2Nat.id by lia. cbn [length]. lia.
  - cbn [us_count usys_init]. rewrite Z2Nat.id by lia.
    replace (uint_wrap (0 + 2 ^ 32)) with 0%Z by reflexivity. reflexivity.
Qed.
