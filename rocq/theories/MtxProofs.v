(** Proofs about named mutexes. *)
From Verif Require Import Base MtxModel MtxSpec.

Lemma phase_set s c p x : phase_of (set_phase s c p) x = if Nat.eqb x c then p else phase_of s x.
Proof.
  unfold phase_of, set_phase; cbn. rewrite aget_aset. unfold eqb.
  destruct (eq_dec x c) as [->|N]; [rewrite Nat.eqb_refl; reflexivity|].
  destruct (Nat.eqb_spec x c); [contradiction|reflexivity].
Qed.
Lemma phase_file s id f x : phase_of (set_file s id f) x = phase_of s x.
Proof. reflexivity. Qed.
Lemma phase_sys n fs l cls x : phase_of (MSys n fs l cls) x = match aget x cls with Some p => p | None => Absent end.
Proof. reflexivity. Qed.
Lemma aget_map_file (g : mfile -> mfile) id (fs : list (nat * mfile)) :
  aget id (map (fun p => (fst p, g (snd p))) fs) = option_map g (aget id fs).
Proof. induction fs as [|[k f] fs IH]; cbn; [reflexivity|]. destruct (eqb id k); [reflexivity|exact IH]. Qed.

Section Inv.
  Variable robust : bool.

  Definition quiet (p : phase) : Prop := p = Absent \/ p = NoHandle.
  Definition phase_ok (s : msys) (id : nat) (f : mfile) (c : nat) : Prop :=
    match phase_of s c with
    | Absent | NoHandle => True
    | Missing => False
    | Creating j b => j = id /\ mf_sized f = b /\ mf_lock f = None /\ (forall x, x <> c -> quiet (phase_of s x))
    | Opened j _ _ => j = id /\ mf_sized f = true
    end.
  Definition lock_ok (s : msys) (id : nat) (f : mfile) (H : list nat) (d : bool) : Prop :=
    match mf_lock f with
    | None => H = [] /\ d = false /\ mf_dead f = false
    | Some x => if mf_dead f then H = [] /\ d = true /\ robust = true
                else H = [x] /\ d = false /\ exists ow w, phase_of s x = Opened id ow w
    end.
  Definition Inv (s : msys) (a : list nat * bool) : Prop :=
    let (H, d) := a in
    match ms_link s with
    | None => H = [] /\ d = false /\
              (forall c, quiet (phase_of s c) \/ phase_of s c = Missing) /\
              (forall c1 c2, phase_of s c1 = Missing -> phase_of s c2 = Missing -> c1 = c2)
    | Some id => exists f, aget id (ms_files s) = Some f /\ (forall c, phase_ok s id f c) /\ lock_ok s id f H d /\
                   (mf_sized f = true \/ exists c b, phase_of s c = Creating id b)
    end.

  Lemma inv_init : Inv msys_init ([], false).
  Proof. cbn. repeat split; try reflexivity; intros; cbn in *; [left; left; reflexivity|discriminate]. Qed.

  Ltac eqs := repeat match goal with
    | H : context[Nat.eqb ?x ?y] |- _ => destruct (Nat.eqb_spec x y); [subst|]
    | |- context[Nat.eqb ?x ?y] => destruct (Nat.eqb_spec x y); [subst|]
    end.

  Lemma others_same c : others c [c] = [].
  Proof. cbn. rewrite Nat.eqb_refl. reflexivity. Qed.
  Lemma others_diff c x : x <> c -> others c [x] = [x].
  Proof. intros N. cbn. destruct (Nat.eqb_spec x c); [contradiction|reflexivity]. Qed.

  (** An opened client sees the current file. *)
  Lemma opened_inv s a c id ow w : Inv s a -> phase_of s c = Opened id ow w ->
    ms_link s = Some id /\ exists f, aget id (ms_files s) = Some f /\ mf_sized f = true /\
      (forall x, phase_ok s id f x) /\ lock_ok s id f (fst a) (snd a).
  Proof.
    destruct a as [H d]. cbn [Inv fst snd]. destruct (ms_link s) as [j|].
    - intros (f & F & P & L & _) E. pose proof (P c) as Pc. unfold phase_ok in Pc. rewrite E in Pc.
      destruct Pc as [-> Z]. split; [reflexivity|]. exists f. auto.
    - intros (_ & _ & Q & _) E. destruct (Q c) as [[C|C]|C]; congruence.
  Qed.

  Lemma phase_ok_ext s s' id f f' c :
    (forall x, phase_of s' x = phase_of s x) -> mf_sized f' = mf_sized f ->
    (forall x, quiet (phase_of s' x) \/ exists j ow w, phase_of s' x = Opened j ow w) ->
    phase_ok s id f c -> phase_ok s' id f' c.
  Proof.
    intros E Z Q. unfold phase_ok. pose proof (Q c) as Qc. rewrite E in *.
    destruct (phase_of s c); try tauto; [|rewrite Z; tauto].
    destruct Qc as [[C|C]|(?&?&?&C)]; discriminate.
  Qed.

  (** With somebody opened nobody is creating. *)
  Lemma all_quiet_or_opened s id f c ow w :
    (forall x, phase_ok s id f x) -> phase_of s c = Opened id ow w ->
    forall x, quiet (phase_of s x) \/ exists ow w, phase_of s x = Opened id ow w.
  Proof.
    intros P E x. pose proof (P x) as Px. unfold phase_ok in Px. unfold quiet.
    destruct (phase_of s x) as [| |j b| |j o v] eqn:Ex; auto.
    - destruct Px.
    - destruct Px as (_ & _ & _ & Q).
      destruct (Nat.eq_dec c x) as [->|N]; [congruence|]. destruct (Q c N) as [C|C]; congruence.
    - destruct Px as [-> _]. right. eauto.
  Qed.

  Lemma take_spec s id f c H d : lock_ok s id f H d ->
    match try_take robust c f with
    | Some (f', r) => H = [] /\ r = d /\ f' = MFile (mf_sized f) (Some c) false
    | None => exists x, H = [x] /\ d = false
    end.
  Proof.
    unfold lock_ok, try_take. destruct (mf_lock f) as [x|].
    - destruct (mf_dead f).
      + intros (-> & -> & ->). cbn. auto.
      + intros (-> & -> & _). rewrite andb_false_r. eauto.
    - intros (-> & -> & _). auto.
  Qed.

  (** The state after a change of the file and of the phase of one opened client. *)
  Lemma update_inv s id f c ow w f' ow' w' H' d' :
    ms_link s = Some id -> aget id (ms_files s) = Some f -> (forall x, phase_ok s id f x) ->
    phase_of s c = Opened id ow w -> mf_sized f' = mf_sized f ->
    lock_ok (set_phase (set_file s id f') c (Opened id ow' w')) id f' H' d' ->
    Inv (set_phase (set_file s id f') c (Opened id ow' w')) (H', d').
  Proof.
    intros L F P E Z LO. cbn [Inv set_phase set_file ms_link]. rewrite L.
    pose proof (P c) as Pc0. unfold phase_ok in Pc0. rewrite E in Pc0. destruct Pc0 as [_ Pc0].
    exists f'. split; [apply aget_aset_same|]. split; [|split; [exact LO|left; congruence]].
    intros x. unfold phase_ok. rewrite (phase_set (set_file s id f')). cbn [phase_of]. rewrite phase_file.
    pose proof (P c) as Pc. unfold phase_ok in Pc. rewrite E in Pc.
    destruct (Nat.eqb_spec x c) as [->|N].
    - rewrite Z. tauto.
    - pose proof (all_quiet_or_opened s id f c ow w P E x) as Q.
      destruct Q as [[Q|Q]|(o & v & Q)]; rewrite Q; auto. rewrite Z. tauto.
  Qed.

  Lemma lock_ok_phase s s' id f H d :
    (forall x ow w, phase_of s x = Opened id ow w -> exists ow w, phase_of s' x = Opened id ow w) ->
    lock_ok s id f H d -> lock_ok s' id f H d.
  Proof.
    intros E. unfold lock_ok. destruct (mf_lock f) as [x|]; [|tauto]. destruct (mf_dead f); [tauto|].
    intros (-> & -> & ow & w & P). split; [reflexivity|]. split; [reflexivity|]. eauto.
  Qed.

  Lemma same_phase s id f c p : phase_of s c = p -> forall x, phase_of (set_phase (set_file s id f) c p) x = phase_of s x.
  Proof. intros E x. rewrite (phase_set (set_file s id f)), phase_file. eqs; congruence. Qed.

  Lemma inv_same_phase s s' a : ms_link s' = ms_link s -> ms_files s' = ms_files s ->
    (forall x, phase_of s' x = phase_of s x) -> Inv s' a -> Inv s a.
  Proof.
    destruct a as [H d]. intros L F E. cbn [Inv]. rewrite L, F. destruct (ms_link s) as [id|].
    - intros (f & Ff & P & LO & SZ). exists f. split; [exact Ff|]. split; [|split].
      + intros c. specialize (P c). unfold phase_ok in *. rewrite E in P. destruct (phase_of s c); auto.
        destruct P as (A & B & C & D). repeat split; auto. intros x N. rewrite <- E. auto.
      + eapply lock_ok_phase; [|exact LO]. intros x ow w. rewrite E. eauto.
      + destruct SZ as [SZ|(c & b & SZ)]; [left; exact SZ|right; exists c, b; rewrite <- E; exact SZ].
    - intros (A & B & C & D). repeat split; auto; intros; [rewrite <- E; auto|].
      apply D; rewrite E; assumption.
  Qed.

  (** Changing only the file of an opened client. *)
  Lemma file_inv s id f c ow w f' H' d' :
    ms_link s = Some id -> aget id (ms_files s) = Some f -> (forall x, phase_ok s id f x) ->
    phase_of s c = Opened id ow w -> mf_sized f' = mf_sized f ->
    lock_ok s id f' H' d' -> Inv (set_file s id f') (H', d').
  Proof.
    intros L F P E Z LO.
    apply (inv_same_phase (set_file s id f') (set_phase (set_file s id f') c (Opened id ow w))); try reflexivity.
    - intros x. rewrite (same_phase s id f' c _ E), phase_file. reflexivity.
    - eapply update_inv; eauto. eapply lock_ok_phase; [|exact LO].
      intros x o v Ex. rewrite (same_phase s id f' c _ E). eauto.
  Qed.
  Lemma phase_inv s id f c ow w ow' w' H d :
    ms_link s = Some id -> aget id (ms_files s) = Some f -> (forall x, phase_ok s id f x) ->
    phase_of s c = Opened id ow w -> lock_ok s id f H d ->
    Inv (set_phase s c (Opened id ow' w')) (H, d).
  Proof.
    intros L F P E LO. cbn [Inv set_phase ms_link]. rewrite L. exists f. split; [exact F|].
    pose proof (P c) as Pc0. unfold phase_ok in Pc0. rewrite E in Pc0. destruct Pc0 as [_ Pc0].
    split; [|split; [|left; exact Pc0]].
    - intros x. unfold phase_ok. rewrite (phase_set s).
      pose proof (P c) as Pc. unfold phase_ok in Pc. rewrite E in Pc.
      destruct (Nat.eqb_spec x c) as [->|N]; [tauto|].
      destruct (all_quiet_or_opened s id f c ow w P E x) as [[Q|Q]|(o & v & Q)]; rewrite Q; tauto.
    - eapply lock_ok_phase; [|exact LO]. intros x o v Ex. rewrite phase_set. destruct (Nat.eqb_spec x c); eauto.
  Qed.

  (** A client without handle changes between quiet phases. *)
  Lemma quiet_inv s c p a : Inv s a -> quiet (phase_of s c) -> quiet p -> Inv (set_phase s c p) a.
  Proof.
    destruct a as [H d]. cbn [Inv set_phase ms_link]. intros I Q Qp.
    destruct (ms_link s) as [id|].
    - destruct I as (f & F & P & LO & SZ). exists f. split; [exact F|]. split; [|split].
      + intros x. unfold phase_ok. rewrite (phase_set s). destruct (Nat.eqb_spec x c) as [->|N].
        * destruct Qp as [-> | ->]; exact I.
        * specialize (P x). unfold phase_ok in P. destruct (phase_of s x) eqn:Ex; auto.
          destruct P as (A & B & C & D). repeat split; auto. intros y Ny. rewrite (phase_set s).
          destruct (Nat.eqb_spec y c); auto.
      + eapply lock_ok_phase; [|exact LO]. intros x o v Ex. rewrite phase_set.
        destruct (Nat.eqb_spec x c) as [->|]; eauto. destruct Q; congruence.
      + destruct SZ as [SZ|(x & b & SZ)]; [left; exact SZ|right; exists x, b]. rewrite phase_set.
        destruct (Nat.eqb_spec x c) as [->|]; auto. destruct Q; congruence.
    - destruct I as (A & B & C & D). repeat split; auto.
      + intros x. rewrite phase_set. destruct (Nat.eqb_spec x c); auto.
      + intros x y. rewrite !phase_set. destruct (Nat.eqb_spec x c) as [->|]; [destruct Qp; congruence|].
        destruct (Nat.eqb_spec y c) as [->|]; [destruct Qp; congruence|]. auto.
  Qed.

  Definition rules_ok (R : rule -> bool) (h : list (xop * xres)) (s : msys) (op : xop) : Prop :=
    forall r, R r = true -> rule_ok r h s op.

  Lemma unlock_spec s id f c H d :
    lock_ok s id f H d -> (robust = false -> forall x, In x H -> x = c) ->
    lock_ok s id (unlock robust c f) (others c H) d /\ mf_sized (unlock robust c f) = mf_sized f.
  Proof.
    unfold lock_ok, unlock. intros LO NR. destruct robust.
    - destruct (mf_lock f) as [x|] eqn:El.
      + destruct (mf_dead f) eqn:Ed.
        * destruct LO as (-> & -> & _). rewrite andb_false_r, El, Ed. auto.
        * destruct LO as (-> & -> & O). destruct (eqb (Some x) (Some c)) eqn:Ex.
          -- apply eqb_true in Ex. injection Ex as ->. cbn [andb negb mf_lock mf_dead mf_sized].
             rewrite others_same. auto.
          -- apply eqb_false in Ex. cbn [andb]. rewrite El, Ed.
             rewrite others_diff by congruence. auto.
      + destruct LO as (-> & -> & D). cbn [eqb]. destruct (eqb None (Some c)) eqn:C; [apply eqb_true in C; discriminate|].
        cbn [andb]. rewrite El. auto.
    - cbn [mf_lock mf_dead mf_sized]. split; [|reflexivity].
      destruct (mf_lock f) as [x|] eqn:El.
      + destruct (mf_dead f) eqn:Ed; [destruct LO as (_ & _ & C); discriminate|].
        destruct LO as (-> & -> & _). rewrite (NR eq_refl x (or_introl eq_refl)), others_same. auto.
      + destruct LO as (-> & -> & D). auto.
  Qed.

  Lemma step_inv R h s op :
    (forall r, needed robust r = true -> R r = true) ->
    Inv s (hist h) -> rules_ok R h s op ->
    exists s' r, x_step robust op s = Some (s', r) /\ Inv s' (hist_step (hist h) (op, r)).
  Proof.
    intros HR I OK.
    assert (N : forall r, needed robust r = true -> rule_ok r h s op) by auto.
    clear OK HR R.
    destruct (hist h) as [H d] eqn:EH.
    assert (Hh : holders h = H) by (unfold holders; rewrite EH; reflexivity).
    assert (same : forall r, hist_step (H, d) (op, r) = (H, d) ->
              exists s' r, Some (s, r) = Some (s', r) /\ Inv s' (hist_step (H, d) (op, r))).
    { intros r Er. exists s, r. split; [reflexivity|]. rewrite Er. exact I. }
    destruct op as [c|c|c|c|c try|c|c|c|c|c|c]; cbn [x_step].
    - (* open *)
      destruct (phase_of s c) eqn:Ec; try (exists s, XRefused; split; [reflexivity|exact I]).
      pose proof (N RCreate eq_refl) as NC. cbn [rule_ok] in NC.
      destruct (ms_link s) as [id|] eqn:L.
      + eexists _, _. split; [reflexivity|]. cbn [hist_step Inv set_phase ms_link] in *. rewrite L in *.
        destruct I as (f & F & P & LO & SZ). exists f. split; [exact F|].
        assert (NCr : forall x j b, phase_of s x <> Creating j b).
        { intros x j b E. specialize (NC x). rewrite E in NC. discriminate. }
        assert (SZ' : mf_sized f = true) by (destruct SZ as [SZ|(x & b & SZ)]; [exact SZ|destruct (NCr _ _ _ SZ)]).
        split; [|split; [|left; exact SZ']].
        * intros x. unfold phase_ok. rewrite (phase_set s). destruct (Nat.eqb_spec x c); [auto|].
          specialize (P x). unfold phase_ok in P. destruct (phase_of s x) eqn:Ex; auto. destruct (NCr _ _ _ Ex).
        * eapply lock_ok_phase; [|exact LO]. intros x o v Ex. rewrite phase_set. destruct (Nat.eqb_spec x c); eauto.
      + eexists _, _. split; [reflexivity|]. cbn [hist_step Inv set_phase ms_link] in *. rewrite L in *.
        destruct I as (A & B & C & D). repeat split; auto.
        * intros x. rewrite phase_set. destruct (Nat.eqb_spec x c); auto.
        * assert (NM : forall x, phase_of s x <> Missing) by (intros x E; specialize (NC x); rewrite E in NC; discriminate).
          intros x y. rewrite !phase_set. destruct (Nat.eqb_spec x c), (Nat.eqb_spec y c); intros; subst; auto;
            exfalso; eapply NM; eauto.
    - (* create the file *)
      destruct (phase_of s c) eqn:Ec; try (exists s, XRefused; split; [reflexivity|exact I]).
      cbn [Inv] in I. destruct (ms_link s) as [id|] eqn:L.
      + destruct I as (f & F & P & _). specialize (P c). unfold phase_ok in P. rewrite Ec in P. destruct P.
      + destruct I as (-> & -> & C & D). eexists _, _. split; [reflexivity|]. cbn [hist_step Inv ms_link].
        eexists. split; [apply aget_aset_same|].
        assert (PH : forall x, phase_of (MSys (S (ms_next s)) (aset (ms_next s) (MFile false None false) (ms_files s)) (Some (ms_next s))
                       (aset c (Creating (ms_next s) false) (ms_cls s))) x = if Nat.eqb x c then Creating (ms_next s) false else phase_of s x).
        { intros x. apply (phase_set s c (Creating (ms_next s) false) x). }
        assert (QU : forall x, x <> c -> quiet (phase_of s x)).
        { intros x Nx. destruct (C x) as [Q|Q]; [exact Q|]. exfalso. apply Nx. apply D; assumption. }
        split; [|split].
        * intros x. unfold phase_ok. rewrite PH. destruct (Nat.eqb_spec x c) as [->|Nx].
          -- repeat split; auto. intros y Ny. rewrite PH. destruct (Nat.eqb_spec y c); [contradiction|auto].
          -- destruct (QU x Nx) as [E|E]; rewrite E; exact I.
        * cbn. auto.
        * right. exists c, false. rewrite PH, Nat.eqb_refl. reflexivity.
    - (* set the size *)
      destruct (phase_of s c) as [| |id b| |] eqn:Ec; try (exists s, XRefused; split; [reflexivity|exact I]).
      destruct b; [exists s, XRefused; split; [reflexivity|exact I]|].
      cbn [Inv] in I. destruct (ms_link s) as [j|] eqn:L.
      2: { destruct I as (_ & _ & C & _). destruct (C c) as [[E|E]|E]; congruence. }
      destruct I as (f & F & P & LO & SZ). pose proof (P c) as Pc. unfold phase_ok in Pc. rewrite Ec in Pc.
      destruct Pc as (-> & Z & U & Q). rewrite F. eexists _, _. split; [reflexivity|].
      cbn [hist_step Inv set_phase set_file ms_link]. rewrite L. eexists. split; [apply aget_aset_same|].
      split; [|split].
      + intros x. unfold phase_ok. rewrite (phase_set (set_file s j _)), phase_file.
        destruct (Nat.eqb_spec x c) as [->|Nx].
        * repeat split; auto. intros y Ny. rewrite (phase_set (set_file s j _)), phase_file.
          destruct (Nat.eqb_spec y c); [contradiction|auto].
        * destruct (Q x Nx) as [E|E]; rewrite E; exact I.
      + unfold lock_ok in *. cbn [mf_lock mf_dead]. rewrite U in *. exact LO.
      + left. reflexivity.
    - (* initialise *)
      destruct (phase_of s c) as [| |id b| |] eqn:Ec; try (exists s, XRefused; split; [reflexivity|exact I]).
      destruct b; [|exists s, XRefused; split; [reflexivity|exact I]].
      cbn [Inv] in I. destruct (ms_link s) as [j|] eqn:L.
      2: { destruct I as (_ & _ & C & _). destruct (C c) as [[E|E]|E]; congruence. }
      destruct I as (f & F & P & LO & SZ). pose proof (P c) as Pc. unfold phase_ok in Pc. rewrite Ec in Pc.
      destruct Pc as (-> & Z & U & Q). rewrite F. eexists _, _. split; [reflexivity|].
      cbn [hist_step Inv set_phase set_file ms_link]. rewrite L. eexists. split; [apply aget_aset_same|].
      split; [|split].
      + intros x. unfold phase_ok. rewrite (phase_set (set_file s j _)), phase_file.
        destruct (Nat.eqb_spec x c) as [->|Nx].
        * auto.
        * destruct (Q x Nx) as [E|E]; rewrite E; exact I.
      + unfold lock_ok in *. cbn [mf_lock mf_dead]. rewrite U in *. tauto.
      + left. exact Z.
    - (* lock *)
      destruct (phase_of s c) as [| | | |id ow w] eqn:Ec; try (exists s, XRefused; split; [reflexivity|exact I]).
      { exists s, (XGot false false). split; [reflexivity|exact I]. }
      destruct w; [exists s, XRefused; split; [reflexivity|exact I]|].
      destruct (opened_inv s (H, d) c id ow false I Ec) as (L & f & F & Z & P & LO). cbn [fst snd] in LO.
      rewrite F, Z. cbn [negb]. pose proof (take_spec s id f c H d LO) as T.
      destruct (try_take robust c f) as [[f' r]|].
      + destruct T as (-> & -> & ->). eexists _, _. split; [reflexivity|]. cbn [hist_step].
        eapply file_inv; eauto. unfold lock_ok. cbn [mf_lock mf_dead]. cbn. eauto.
      + destruct try; eexists _, _; (split; [reflexivity|]); cbn [hist_step]; [exact I|].
        eapply phase_inv; eauto.
    - (* wake up *)
      destruct (phase_of s c) as [| | | |id ow w] eqn:Ec; try (exists s, XRefused; split; [reflexivity|exact I]).
      destruct w; [|exists s, XRefused; split; [reflexivity|exact I]].
      destruct (opened_inv s (H, d) c id ow true I Ec) as (L & f & F & Z & P & LO). cbn [fst snd] in LO.
      rewrite F. pose proof (take_spec s id f c H d LO) as T.
      destruct (try_take robust c f) as [[f' r]|].
      + destruct T as (-> & -> & ->). eexists _, _. split; [reflexivity|]. cbn [hist_step].
        eapply update_inv; eauto. unfold lock_ok. cbn [mf_lock mf_dead others filter].
        split; [reflexivity|]. split; [reflexivity|]. exists ow, false.
        rewrite (phase_set (set_file s id _)), Nat.eqb_refl. reflexivity.
      + exists s, XBlocked. split; [reflexivity|exact I].
    - (* timeout *)
      destruct (phase_of s c) as [| | | |id ow w] eqn:Ec; try (exists s, XRefused; split; [reflexivity|exact I]).
      destruct w; [|exists s, XRefused; split; [reflexivity|exact I]].
      destruct (opened_inv s (H, d) c id ow true I Ec) as (L & f & F & Z & P & LO). cbn [fst snd] in LO.
      eexists _, _. split; [reflexivity|]. cbn [hist_step]. eapply phase_inv; eauto.
    - (* unlock *)
      destruct (phase_of s c) as [| | | |id ow w] eqn:Ec; try (exists s, XRefused; split; [reflexivity|exact I]).
      destruct w; [exists s, XRefused; split; [reflexivity|exact I]|].
      destruct (opened_inv s (H, d) c id ow false I Ec) as (L & f & F & Z & P & LO). cbn [fst snd] in LO.
      rewrite F, Z. cbn [negb]. eexists _, _. split; [reflexivity|]. cbn [hist_step].
      destruct (unlock_spec s id f c H d LO) as [LU ZU].
      { intros NR x Hx. pose proof (N RUnlock) as NU. cbn [needed rule_ok] in NU. rewrite NR, Hh in NU.
        specialize (NU eq_refl). unfold lock_ok in LO. destruct (mf_lock f) as [y|].
        - destruct (mf_dead f); destruct LO as (-> & _); cbn in *; [destruct NU|].
          destruct Hx as [->|[]]. destruct NU as [->|[]]. reflexivity.
        - destruct LO as (-> & _). destruct NU. }
      eapply file_inv; eauto.
    - (* drop the ownership *)
      destruct (phase_of s c) as [| | | |id ow w] eqn:Ec; try (exists s, XRefused; split; [reflexivity|exact I]).
      destruct w; [exists s, XRefused; split; [reflexivity|exact I]|].
      destruct (opened_inv s (H, d) c id ow false I Ec) as (L & f & F & Z & P & LO). cbn [fst snd] in LO.
      eexists _, _. split; [reflexivity|]. cbn [hist_step]. eapply phase_inv; eauto.
    - (* close *)
      destruct (phase_of s c) as [| | | |id ow w] eqn:Ec; try (exists s, XRefused; split; [reflexivity|exact I]).
      { eexists _, _. split; [reflexivity|]. cbn [hist_step].
        assert (EO : others c H = H).
        { cbn [Inv] in I. destruct (ms_link s) as [id|].
          - destruct I as (f & F & P & LO & _). unfold lock_ok in LO. destruct (mf_lock f) as [x|].
            + destruct (mf_dead f); destruct LO as (-> & LO); [reflexivity|]. destruct LO as (_ & o & v & E).
              apply others_diff. intros ->. congruence.
            + destruct LO as (-> & _). reflexivity.
          - destruct I as (-> & _). reflexivity. }
        rewrite EO. apply quiet_inv; [exact I|right; exact Ec|left; reflexivity]. }
      destruct w; [exists s, XRefused; split; [reflexivity|exact I]|].
      destruct (opened_inv s (H, d) c id ow false I Ec) as (L & f & F & Z & P & LO). cbn [fst snd] in LO.
      rewrite F, Z. cbn [negb].
      destruct (unlock_spec s id f c H d LO) as [LU ZU].
      { intros NR x Hx. pose proof (N RClose) as NU. cbn [needed rule_ok] in NU. rewrite NR, Hh in NU. auto. }
      pose proof (all_quiet_or_opened s id f c ow false P Ec) as QO.
      assert (HX : others c H = [] \/ exists x o v, others c H = [x] /\ x <> c /\ phase_of s x = Opened id o v).
      { unfold lock_ok in LU. destruct (mf_lock (unlock robust c f)) as [x|].
        - destruct (mf_dead (unlock robust c f)); destruct LU as (E & LU); [left; exact E|].
          destruct LU as (_ & o & v & E2). right. exists x, o, v. split; [exact E|]. split; [|exact E2].
          intros ->. assert (In c (others c H)) by (rewrite E; left; reflexivity).
          unfold others in *. apply filter_In in H0. destruct H0 as [_ H0]. rewrite Nat.eqb_refl in H0. discriminate.
        - destruct LU as (E & _). left; exact E. }
      destruct ow; (eexists _, _; split; [reflexivity|]); cbn [hist_step Inv ms_link set_phase set_file].
      + pose proof (N ROwner eq_refl) as NO. cbn [rule_ok] in NO. specialize (NO (ex_intro _ id (ex_intro _ false Ec))).
        assert (E0 : others c H = []).
        { destruct HX as [E|(x & o & v & E & Nx & Ex)]; [exact E|]. destruct (NO x Nx) as [C|C]; congruence. }
        rewrite E0. split; [reflexivity|]. split; [reflexivity|].
        assert (PH : forall x, phase_of (MSys (ms_next s) (aset id (unlock robust c f) (ms_files s)) None (aset c Absent (ms_cls s))) x
                     = if Nat.eqb x c then Absent else phase_of s x) by (intros x; apply (phase_set s c Absent x)).
        assert (QQ : forall x, quiet (if Nat.eqb x c then Absent else phase_of s x)).
        { intros x. destruct (Nat.eqb_spec x c); [left; reflexivity|apply NO; assumption]. }
        split.
        * intros x. rewrite PH. left. apply QQ.
        * intros x y Ex. rewrite PH in Ex. destruct (QQ x); congruence.
      + rewrite L. eexists. split; [apply aget_aset_same|]. split; [|split].
        * intros x. unfold phase_ok.
          rewrite (phase_set (set_file s id (unlock robust c f))), phase_file. destruct (Nat.eqb_spec x c) as [->|Nx]; [exact Logic.I|].
          destruct (QO x) as [[E|E]|(o & v & E)]; rewrite E; auto. rewrite ZU. auto.
        * unfold lock_ok in *. destruct (mf_lock (unlock robust c f)) as [x|]; [|exact LU].
          destruct (mf_dead (unlock robust c f)); [exact LU|]. destruct LU as (E & Ed & o & v & Ex).
          split; [exact E|]. split; [exact Ed|]. exists o, v.
          destruct HX as [C|(y & o' & v' & Ey & Ny & _)]; [congruence|].
          assert (x = y) by congruence. subst y.
          rewrite (phase_set (set_file s id (unlock robust c f))), phase_file.
          destruct (Nat.eqb_spec x c); [contradiction|exact Ex].
        * left. congruence.
    - (* die *)
      assert (NC : creating (phase_of s c) = false) by (apply (N RDieCreating); reflexivity).
      assert (ST : phase_of s c <> Absent ->
        exists s' r, Some (MSys (ms_next s) (if robust then map (fun p => if eqb (mf_lock (snd p)) (Some c)
                                 then (fst p, MFile (mf_sized (snd p)) (mf_lock (snd p)) true) else p) (ms_files s) else ms_files s)
                         (ms_link s) (aset c Absent (ms_cls s)), XDone) = Some (s', r) /\ Inv s' (hist_step (H, d) (XDie c, r))).
      2: { destruct (phase_of s c) eqn:Ec; [exists s, XRefused; split; [reflexivity|exact I]|..]; apply ST; discriminate. }
      intros NA. eexists _, _. split; [reflexivity|]. cbn [hist_step Inv ms_link].
      set (files := if robust then _ else _).
      set (g := fun f => if robust && eqb (mf_lock f) (Some c) then MFile (mf_sized f) (mf_lock f) true else f).
      assert (FG : forall id, aget id files = option_map g (aget id (ms_files s))).
      { intros id. unfold files, g. destruct robust; cbn [andb].
        - rewrite <- aget_map_file. f_equal. apply map_ext. intros [k f]. cbn. destruct (eqb (mf_lock f) (Some c)); reflexivity.
        - destruct (aget id (ms_files s)); reflexivity. }
      assert (PH : forall x, phase_of (MSys (ms_next s) files (ms_link s) (aset c Absent (ms_cls s))) x
                     = if Nat.eqb x c then Absent else phase_of s x) by (intros x; apply (phase_set s c Absent x)).
      cbn [Inv] in I. destruct (ms_link s) as [id|] eqn:L.
      + destruct I as (f & F & P & LO & SZ). exists (g f). rewrite FG, F. split; [reflexivity|].
        assert (ZG : mf_sized (g f) = mf_sized f) by (unfold g; destruct (robust && eqb (mf_lock f) (Some c)); reflexivity).
        assert (LG : mf_lock (g f) = mf_lock f) by (unfold g; destruct (robust && eqb (mf_lock f) (Some c)); reflexivity).
        split; [|split].
        * intros x. unfold phase_ok. rewrite PH. destruct (Nat.eqb_spec x c) as [->|Nx]; [exact I|].
          specialize (P x). unfold phase_ok in P. destruct (phase_of s x) eqn:Ex; auto.
          -- destruct P as (A & B & C & D). rewrite ZG, LG. repeat split; auto. intros y Ny. rewrite PH.
             destruct (Nat.eqb_spec y c); [left; reflexivity|auto].
          -- rewrite ZG. exact P.
        * unfold lock_ok in *. rewrite LG. destruct (mf_lock f) as [x|] eqn:El.
          -- destruct (mf_dead f) eqn:Ed.
             ++ destruct LO as (-> & -> & HRb). assert (DG : mf_dead (g f) = true).
                { unfold g. destruct (robust && eqb (mf_lock f) (Some c)); [reflexivity|exact Ed]. }
                rewrite DG. auto.
             ++ destruct LO as (-> & -> & o & v & Ex). cbn [existsb]. rewrite orb_false_r.
                destruct (Nat.eq_dec x c) as [->|Nx].
                ** rewrite Nat.eqb_refl, others_same. cbn [orb].
                   assert (Rb : robust = true).
                   { destruct robust eqn:Rb; [reflexivity|]. exfalso.
                     pose proof (N RDieHolding eq_refl) as ND. cbn [rule_ok] in ND. rewrite Hh in ND. apply ND. left. reflexivity. }
                   assert (DG : mf_dead (g f) = true) by (unfold g; rewrite Rb, El, eqb_refl; reflexivity).
                   rewrite DG. auto.
                ** assert (DG : mf_dead (g f) = false).
                   { unfold g. rewrite El, (neq_eqb (Some x) (Some c)) by congruence. rewrite andb_false_r. exact Ed. }
                   rewrite DG, (others_diff c x Nx). destruct (Nat.eqb_spec c x); [congruence|].
                   split; [reflexivity|]. split; [reflexivity|]. exists o, v. rewrite PH.
                   destruct (Nat.eqb_spec x c); [contradiction|exact Ex].
          -- destruct LO as (-> & -> & Ed). cbn. split; [reflexivity|]. split; [reflexivity|].
             unfold g. rewrite El. destruct (eqb None (Some c)) eqn:C; [apply eqb_true in C; discriminate|].
             rewrite andb_false_r. exact Ed.
        * destruct SZ as [SZ|(x & b & SZ)]; [left; congruence|]. right. exists x, b. rewrite PH.
          destruct (Nat.eqb_spec x c) as [->|]; [rewrite SZ in NC; discriminate|exact SZ].
      + destruct I as (-> & -> & C & D). cbn. split; [reflexivity|]. split; [reflexivity|].
        split.
        * intros x. rewrite PH. destruct (Nat.eqb_spec x c); [left; left; reflexivity|apply C].
        * intros x y. rewrite !PH. destruct (Nat.eqb_spec x c), (Nat.eqb_spec y c); intros; try discriminate. auto.
  Qed.
End Inv.

Lemma hist_app h e : hist (h ++ [e]) = hist_step (hist h) e.
Proof. unfold hist. rewrite fold_left_app. reflexivity. Qed.

Lemma run_inv robust R ops : (forall r, needed robust r = true -> R r = true) -> forall h s,
  Inv robust s (hist h) -> run_ok robust R h ops s ->
  exists s' rs, x_run robust ops s = Some (s', rs) /\ Inv robust s' (hist (h ++ combine ops rs)) /\ length rs = length ops.
Proof.
  intros HR. induction ops as [|op ops IH]; intros h s I OK.
  - exists s, []. split; [reflexivity|]. split; [|reflexivity]. rewrite app_nil_r. exact I.
  - cbn [run_ok] in OK. destruct OK as [O OK].
    destruct (step_inv robust R h s op HR I O) as (s1 & r & E & I1). rewrite E in OK.
    rewrite <- hist_app in I1. destruct (IH _ _ I1 OK) as (s2 & rs & E2 & I2 & L2).
    exists s2, (r :: rs). cbn [x_run]. rewrite E, E2. split; [reflexivity|]. split.
    + cbn [combine]. rewrite <- app_assoc in I2. exact I2.
    + cbn. f_equal. exact L2.
Qed.

Lemma reach robust ops s rs :
  run_ok robust (needed robust) [] ops msys_init -> x_run robust ops msys_init = Some (s, rs) ->
  Inv robust s (hist (combine ops rs)) /\ length rs = length ops.
Proof.
  intros OK E. destruct (run_inv robust (needed robust) ops (fun _ x => x) [] msys_init (inv_init robust) OK)
    as (s' & rs' & E' & I & L). rewrite E in E'. injection E' as <- <-. auto.
Qed.

Lemma no_fault_lemma : forall robust ops,
  run_ok robust (needed robust) [] ops msys_init -> x_run robust ops msys_init <> None.
Proof.
  intros robust ops OK. destruct (run_inv robust (needed robust) ops (fun _ x => x) [] msys_init (inv_init robust) OK)
    as (s' & rs' & E' & _). congruence.
Qed.

Lemma holders_inv robust s a : Inv robust s a -> fst a = [] \/ exists x, fst a = [x].
Proof.
  destruct a as [H d]. cbn [Inv fst]. destruct (ms_link s).
  - intros (f & _ & _ & LO & _). unfold lock_ok in LO. destruct (mf_lock f); [destruct (mf_dead f)|];
      destruct LO as (-> & _); eauto.
  - intros (-> & _). auto.
Qed.

Lemma one_holder_lemma : forall robust ops s rs,
  run_ok robust (needed robust) [] ops msys_init -> x_run robust ops msys_init = Some (s, rs) ->
  forall a b, In a (holders (combine ops rs)) -> In b (holders (combine ops rs)) -> a = b.
Proof.
  intros robust ops s rs OK E a b. destruct (reach _ _ _ _ OK E) as [I _].
  unfold holders. destruct (holders_inv _ _ _ I) as [-> |[x ->]]; cbn; [tauto|]. intros [<-|[]] [<-|[]]. reflexivity.
Qed.

Lemma granted_lemma : forall robust ops s rs c id ow,
  run_ok robust (needed robust) [] ops msys_init -> x_run robust ops msys_init = Some (s, rs) ->
  (phase_of s c = Opened id ow false -> forall try, exists s',
     x_step robust (XLock c try) s = Some (s',
       match holders (combine ops rs) with
       | [] => XGot true (died_holding (combine ops rs))
       | _ => if try then XGot false false else XBlocked
       end)) /\
  (phase_of s c = Opened id ow true -> exists s',
     x_step robust (XWake c) s = Some (s',
       match holders (combine ops rs) with
       | [] => XGot true (died_holding (combine ops rs))
       | _ => XBlocked
       end)).
Proof.
  intros robust ops s rs c id ow OK E. destruct (reach _ _ _ _ OK E) as [I _].
  unfold holders, died_holding. destruct (hist (combine ops rs)) as [H d]. cbn [fst snd].
  split.
  - intros Ec try. destruct (opened_inv robust s (H, d) c id ow false I Ec) as (L & f & F & Z & P & LO).
    cbn [fst snd] in LO. cbn [x_step]. rewrite Ec, F, Z. cbn [negb].
    pose proof (take_spec robust s id f c H d LO) as T. destruct (try_take robust c f) as [[f' r]|].
    + destruct T as (-> & -> & _). eauto.
    + destruct T as (x & -> & _). destruct try; eauto.
  - intros Ec. destruct (opened_inv robust s (H, d) c id ow true I Ec) as (L & f & F & Z & P & LO).
    cbn [fst snd] in LO. cbn [x_step]. rewrite Ec, F.
    pose proof (take_spec robust s id f c H d LO) as T. destruct (try_take robust c f) as [[f' r]|].
    + destruct T as (-> & -> & _). eauto.
    + destruct T as (x & -> & _). eauto.
Qed.

Lemma run_ok_app robust R ops1 ops2 : forall h s s1 rs1,
  run_ok robust R h ops1 s -> x_run robust ops1 s = Some (s1, rs1) ->
  run_ok robust R (h ++ combine ops1 rs1) ops2 s1 -> run_ok robust R h (ops1 ++ ops2) s.
Proof.
  induction ops1 as [|op ops1 IH]; intros h s s1 rs1 OK E OK2; cbn in *.
  - injection E as <- <-. rewrite app_nil_r in OK2. exact OK2.
  - destruct OK as [O OK]. destruct (x_step robust op s) as [[s2 r]|]; [|discriminate].
    destruct (x_run robust ops1 s2) as [[s3 rs]|] eqn:E2; [|discriminate]. injection E as <- <-.
    split; [exact O|]. eapply IH; eauto. rewrite <- app_assoc. exact OK2.
Qed.

Lemma x_run_snoc robust ops op : forall s s1 rs s2 r,
  x_run robust ops s = Some (s1, rs) -> x_step robust op s1 = Some (s2, r) ->
  x_run robust (ops ++ [op]) s = Some (s2, rs ++ [r]).
Proof.
  induction ops as [|o ops IH]; intros s s1 rs s2 r E E2; cbn in *.
  - injection E as <- <-. rewrite E2. reflexivity.
  - destruct (x_step robust o s) as [[s3 r3]|]; [|discriminate].
    destruct (x_run robust ops s3) as [[s4 rs4]|] eqn:E4; [|discriminate]. injection E as <- <-.
    rewrite (IH _ _ _ _ _ E4 E2). reflexivity.
Qed.

Lemma combine_snoc {A B} (l1 : list A) (l2 : list B) a b :
  length l1 = length l2 -> combine (l1 ++ [a]) (l2 ++ [b]) = combine l1 l2 ++ [(a, b)].
Proof.
  revert l2. induction l1 as [|x l1 IH]; intros [|y l2] L; cbn in *; try discriminate; [reflexivity|].
  rewrite IH by congruence. reflexivity.
Qed.

(** The lock is free after the holder has unlocked it or closed its object. *)
Lemma released_lemma : forall robust ops s rs c op s' r,
  run_ok robust (needed robust) [] ops msys_init -> x_run robust ops msys_init = Some (s, rs) ->
  In c (holders (combine ops rs)) ->
  op = XUnlock c \/ op = XClose c -> x_step robust op s = Some (s', r) -> r <> XRefused ->
  holders (combine (ops ++ [op]) (rs ++ [r])) = [] /\
  (forall r0, needed robust r0 = true -> r0 <> ROwner -> rule_ok r0 (combine ops rs) s op).
Proof.
  intros robust ops s rs c op s' r OK E Hc Hop Es Nr. destruct (reach _ _ _ _ OK E) as [I L].
  rewrite combine_snoc by congruence. unfold holders in *. rewrite hist_app.
  destruct (hist (combine ops rs)) as [H d] eqn:EH. cbn [fst] in Hc.
  destruct (holders_inv _ _ _ I) as [C|[x C]]; cbn [fst] in C; subst H; [destruct Hc|]. destruct Hc as [->|[]].
  split.
  - destruct Hop as [-> | ->]; cbn [x_step] in Es; destruct (phase_of s c) as [| | | |id ow w] eqn:Ec;
      try (injection Es as _ <-; contradiction).
    + destruct w; [injection Es as _ <-; contradiction|]. destruct (aget id (ms_files s)); [|injection Es as _ <-; contradiction].
      destruct (negb (mf_sized m)); [discriminate|]. injection Es as _ <-. cbn. rewrite Nat.eqb_refl. reflexivity.
    + injection Es as _ <-. cbn. rewrite Nat.eqb_refl. reflexivity.
    + destruct w; [injection Es as _ <-; contradiction|]. destruct (aget id (ms_files s)); [|injection Es as _ <-; contradiction].
      destruct (negb (mf_sized m)); [discriminate|]. destruct ow; injection Es as _ <-; cbn; rewrite Nat.eqb_refl; reflexivity.
  - intros r0 _ NO. unfold rule_ok, holders. rewrite EH. cbn [fst].
    destruct Hop as [-> | ->]; destruct r0; try exact Logic.I; try congruence.
    + left; reflexivity.
    + intros y [->|[]]. reflexivity.
Qed.

(** A check for concrete runs. *)
Definition quietb (p : phase) : bool := match p with Absent | NoHandle => true | _ => false end.
Definition rule_okb (r : rule) (h : list (xop * xres)) (s : msys) (op : xop) : bool :=
  match r, op with
  | RCreate, XOpen _ => forallb (fun p => negb (creating (snd p))) (ms_cls s)
  | RUnlock, XUnlock c => existsb (Nat.eqb c) (holders h)
  | RClose, XClose c => forallb (Nat.eqb c) (holders h)
  | ROwner, XClose c => match phase_of s c with
                        | Opened _ true _ => forallb (fun p => Nat.eqb (fst p) c || quietb (snd p)) (ms_cls s)
                        | _ => true
                        end
  | RDieHolding, XDie c => negb (existsb (Nat.eqb c) (holders h))
  | RDieCreating, XDie c => negb (creating (phase_of s c))
  | _, _ => true
  end.
Fixpoint run_okb (robust : bool) (R : rule -> bool) (h : list (xop * xres)) (ops : list xop) (s : msys) : bool :=
  match ops with
  | [] => true
  | op :: ops' =>
      forallb (fun r => negb (R r) || rule_okb r h s op) [RCreate; RUnlock; RClose; ROwner; RDieHolding; RDieCreating] &&
      match x_step robust op s with
      | Some (s', x) => run_okb robust R (h ++ [(op, x)]) ops' s'
      | None => true
      end
  end.
Lemma rule_okb_sound r h s op : rule_okb r h s op = true -> rule_ok r h s op.
Proof.
  destruct r, op; cbn; try (intros; exact Logic.I).
  - rewrite forallb_forall. intros F x. unfold phase_of. destruct (aget x (ms_cls s)) as [p|] eqn:E; [|reflexivity].
    apply aget_in in E. specialize (F _ E). cbn in F. destruct (creating p); [discriminate|reflexivity].
  - intros E. apply existsb_exists in E. destruct E as (x & I & E). apply Nat.eqb_eq in E. subst. exact I.
  - rewrite forallb_forall. intros F x I. specialize (F x I). apply Nat.eqb_eq in F. auto.
  - intros F (id & w & E) x N. rewrite E in F. rewrite forallb_forall in F. unfold phase_of.
    destruct (aget x (ms_cls s)) as [p|] eqn:Ex; [|auto]. apply aget_in in Ex. specialize (F _ Ex). cbn in F.
    destruct (Nat.eqb_spec x c); [contradiction|]. destruct p; try discriminate; auto.
  - intros F I. apply negb_true_iff in F. assert (existsb (Nat.eqb c) (holders h) = true); [|congruence].
    apply existsb_exists. exists c. split; [exact I|apply Nat.eqb_refl].
  - intros F. apply negb_true_iff in F. exact F.
Qed.
Lemma run_okb_sound robust R ops : forall h s, run_okb robust R h ops s = true -> run_ok robust R h ops s.
Proof.
  induction ops as [|op ops IH]; intros h s E; [exact Logic.I|]. cbn [run_okb run_ok] in *.
  apply andb_true_iff in E. destruct E as [E1 E2]. split.
  - rewrite forallb_forall in E1. intros r Hr. apply rule_okb_sound. specialize (E1 r). rewrite Hr in E1. cbn [negb orb] in E1.
    apply E1. destruct r; cbn; tauto.
  - destruct (x_step robust op s) as [[s' x]|]; [auto|exact Logic.I].
Qed.
Ltac xrun_solve := apply run_okb_sound; vm_compute; reflexivity.

Lemma close_counterexample : exists ops s rs, run_ok false (except RClose false) [] ops msys_init /\
    x_run false ops msys_init = Some (s, rs) /\ holders (combine ops rs) = [3; 1].
Proof.
  exists [XOpen 1; XExcl 1; XTrunc 1; XInit 1; XOpen 2; XOpen 3; XLock 1 false; XClose 2; XLock 3 false]. eexists _, _.
  split; [xrun_solve|]. split; vm_compute; reflexivity.
Qed.
Lemma unlock_counterexample : exists ops s rs, run_ok false (except RUnlock false) [] ops msys_init /\
    x_run false ops msys_init = Some (s, rs) /\ holders (combine ops rs) = [2; 1].
Proof.
  exists [XOpen 1; XExcl 1; XTrunc 1; XInit 1; XOpen 2; XLock 1 false; XUnlock 2; XLock 2 false]. eexists _, _.
  split; [xrun_solve|]. split; vm_compute; reflexivity.
Qed.
Lemma create_counterexample : forall robust, exists ops s rs, run_ok robust (except RCreate robust) [] ops msys_init /\
    x_run robust ops msys_init = Some (s, rs) /\ holders (combine ops rs) = [1; 2].
Proof.
  intros robust. exists [XOpen 1; XExcl 1; XTrunc 1; XOpen 2; XLock 2 false; XInit 1; XLock 1 true].
  destruct robust; eexists _, _; (split; [xrun_solve|]); split; vm_compute; reflexivity.
Qed.
Lemma fault_counterexample : forall robust, exists ops, run_ok robust (except RCreate robust) [] ops msys_init /\ x_run robust ops msys_init = None.
Proof.
  intros robust. exists [XOpen 1; XExcl 1; XOpen 2; XLock 2 false].
  destruct robust; (split; [xrun_solve|]); vm_compute; reflexivity.
Qed.
Lemma nohandle_counterexample : forall robust, exists ops s rs, run_ok robust (except RCreate robust) [] ops msys_init /\
    x_run robust ops msys_init = Some (s, rs) /\ phase_of s 2 = NoHandle /\ ms_link s <> None.
Proof.
  intros robust. exists [XOpen 1; XOpen 2; XExcl 1; XExcl 2; XTrunc 1; XInit 1].
  destruct robust; eexists _, _; (split; [xrun_solve|]); (split; [vm_compute; reflexivity|]); split; vm_compute; congruence.
Qed.
Lemma owner_counterexample : forall robust, exists ops s rs, run_ok robust (except ROwner robust) [] ops msys_init /\
    x_run robust ops msys_init = Some (s, rs) /\ holders (combine ops rs) = [3; 2].
Proof.
  intros robust. exists [XOpen 1; XExcl 1; XTrunc 1; XInit 1; XOpen 2; XClose 1; XLock 2 true; XOpen 3; XExcl 3; XTrunc 3; XInit 3; XLock 3 true].
  destruct robust; eexists _, _; (split; [xrun_solve|]); split; vm_compute; reflexivity.
Qed.
Lemma die_counterexample : exists ops s rs, run_ok false (except RDieHolding false) [] ops msys_init /\
    x_run false ops msys_init = Some (s, rs) /\ holders (combine ops rs) = [] /\
    phase_of s 2 = Opened 0 false false /\ x_step false (XLock 2 true) s = Some (s, XGot false false).
Proof.
  exists [XOpen 1; XExcl 1; XTrunc 1; XInit 1; XOpen 2; XLock 1 true; XDie 1]. eexists _, _.
  split; [xrun_solve|]. repeat split; vm_compute; reflexivity.
Qed.
