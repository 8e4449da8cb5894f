(** Proofs about services as a whole: discovery, sessions and ports. *)
From Coq Require Import Lia Bool.
From Verif Require Import Base Sample ExpMapModel PbModel PbSpec SerModel SerSpec SrvModel SrvSpec CliModel CliSpec FrmModel RpcModel RpcSpec RpcProofs SdsModel WsvModel WsvSpec WsvProofs.
From Verif Require SdsSpec SdsProofs.
Import SdsProofs(ngood, pgood, cgood, pg_cli, pg_each, pg_srv, cg_ses).

(** ** The sessions in the maps of the clients *)
Definition ses_at (n : dnet) (p x : nat) (k : text) : option (text * dses) :=
  match the_client n p x with Some (_, d) => match aget k (cx_ses d) with Some z => Some (cx_name d, z) | None => None end | None => None end.
Lemma had_ses n p x k : had n p x k = match ses_at n p x k with Some _ => true | None => false end.
Proof.
  unfold had, ses_at, the_client, amem. destruct (aget p (dn_procs n)) as [q|]; [|reflexivity]. destruct (aget x (px_cli q)) as [d|]; [|reflexivity]. destruct (aget k (cx_ses d)); reflexivity.
Qed.
Lemma client_at n p x q d : the_client n p x = Some (q, d) <-> aget p (dn_procs n) = Some q /\ aget x (px_cli q) = Some d.
Proof.
  unfold the_client. destruct (aget p (dn_procs n)) as [q0|]; [|split; [discriminate|intros [X _]; discriminate]]. destruct (aget x (px_cli q0)) as [d0|] eqn:A.
  - split; [intros E; injection E as <- <-; auto|]. intros [E1 E2]. injection E1 as <-. rewrite A in E2. injection E2 as <-. reflexivity.
  - split; [discriminate|]. intros [E1 E2]. injection E1 as <-. congruence.
Qed.
Lemma client_good n p x q d : ngood n -> the_client n p x = Some (q, d) -> cgood d.
Proof. intros G E. apply client_at in E. destruct E as [A B]. apply (pg_each _ (G p q A) x d), aget_in, B. Qed.
Lemma ses_session n p x k nm z : ngood n -> (ses_at n p x k = Some (nm, z) <-> exists c d, SdsSpec.client_of n p x c d /\ SdsSpec.session d k z /\ nm = cx_name d).
Proof.
  intros G. unfold ses_at. split.
  - destruct (the_client n p x) as [[q d]|] eqn:T; [|discriminate]. destruct (aget k (cx_ses d)) as [z0|] eqn:K; [|discriminate]. intros E; injection E as <- <-.
    apply client_at in T. destruct T as [A B]. exists (px_cfg q), d. split; [exists q; auto|]. split; [apply aget_in, K|reflexivity].
  - intros (c & d & (q & A & _ & B) & S1 & ->). rewrite (proj2 (client_at n p x q d) (conj A B)). unfold SdsSpec.session in S1.
    rewrite (in_aget k z _ (cg_ses _ (pg_each _ (G p q A) x d (aget_in _ _ _ B))) S1). reflexivity.
Qed.
Definition is_fail (o : dop) (p x : nat) (k : text) : Prop := o = DAt p (PFail x k).
Lemma move_ses sent q x d o d' k : SdsProofs.cmove sent q x d o d' ->
  cx_name d' = cx_name d /\
  match aget k (cx_ses d) with
  | Some z => exists z', aget k (cx_ses d') = Some z' /\ ss_ends z' = ss_ends z /\ ss_proto z' = ss_proto z /\
      ((z' = z /\ o <> PFail x k) \/ (o = PFail x k /\ ss_failed z' = true) \/ z' = z)
  | None => forall z', aget k (cx_ses d') = Some z' -> ss_failed z' = false
  end.
Proof.
  intros M. destruct M as [o|h h'| | |k0 z0 K0|o now m S1 N1].
  - split; [reflexivity|]. destruct (aget k (cx_ses d)) as [z|] eqn:K; [exists z; auto 7|]. intros z' X. congruence.
  - split; [reflexivity|]. cbn [cx_ses]. destruct (aget k (cx_ses d)) as [z|] eqn:K; [exists z; auto 7|]. intros z' X. congruence.
  - split; [reflexivity|]. cbn [cx_check cx_ses]. rewrite SdsProofs.refresh_ses. destruct (aget k (cx_ses d)) as [z|] eqn:K.
    + exists z. rewrite (SdsProofs.open_keeps _ _ _ _ K). auto 7.
    + intros z' X. destruct (SdsProofs.open_from _ _ _ _ X) as [E|(_ & a & _ & _ & ->)]; [congruence|reflexivity].
  - split; [reflexivity|]. rewrite SdsProofs.refresh_ses. destruct (aget k (cx_ses d)) as [z|] eqn:K.
    + exists z. rewrite (SdsProofs.open_keeps _ _ _ _ K). auto 7.
    + intros z' X. destruct (SdsProofs.open_from _ _ _ _ X) as [E|(_ & a & _ & _ & ->)]; [congruence|reflexivity].
  - split; [reflexivity|]. cbn [cx_ses]. rewrite aget_aset. destruct (eqb k k0) eqn:E.
    + apply eqb_true in E. subst k0. rewrite K0. exists (DSes (ss_proto z0) (ss_ends z0) true). cbn. auto 7.
    + apply eqb_false in E. destruct (aget k (cx_ses d)) as [z|] eqn:K; [exists z; split; [reflexivity|]; split; [reflexivity|]; split; [reflexivity|]; left; split; [reflexivity|congruence]|]. intros z' X. congruence.
  - assert (SE : cx_ses (cx_hear (ca_key (attr_of m)) (attr_of m) d) = cx_ses d /\ cx_name (cx_hear (ca_key (attr_of m)) (attr_of m) d) = cx_name d) by (unfold cx_hear; destruct (aget _ (cx_conn d)); auto).
    destruct SE as [-> ->]. split; [reflexivity|]. destruct (aget k (cx_ses d)) as [z|] eqn:K; [exists z; auto 7|]. intros z' X. congruence.
Qed.
(** The step that fails a session does so. *)
Lemma fail_ses p x k s s' : dn_step (DAt p (PFail x k)) s = Some s' -> forall p' x' k', ses_at s' p' x' k' =
  if (Nat.eqb p' p && Nat.eqb x' x && eqb k' k)%bool then option_map (fun nz => (fst nz, DSes (ss_proto (snd nz)) (ss_ends (snd nz)) true)) (ses_at s p' x' k') else ses_at s p' x' k'.
Proof.
  intros E p' x' k'. cbn [dn_step] in E. unfold ses_at, the_client. destruct (aget p (dn_procs s)) as [q|] eqn:A.
  - cbn [px_step] in E. injection E as <-. cbn [dn_procs]. rewrite aget_aset. destruct (Nat.eqb_spec p' p) as [P|P].
    + subst p'. rewrite eqb_refl, A. unfold on_cli. destruct (aget x (px_cli q)) as [d|] eqn:B.
      * cbn [px_cli with_cli]. rewrite aget_aset. destruct (Nat.eqb_spec x' x) as [X|X].
        -- subst x'. rewrite eqb_refl, B. cbn [cx_ses cx_name]. destruct (aget k (cx_ses d)) as [z|] eqn:K.
           ++ rewrite aget_aset. cbn [andb]. destruct (eqb k' k) eqn:KK; [|reflexivity]. apply eqb_true in KK. subst k'. rewrite K. reflexivity.
           ++ cbn [andb]. destruct (eqb k' k) eqn:KK; [|reflexivity]. apply eqb_true in KK. subst k'. rewrite K. reflexivity.
        -- rewrite (neq_eqb x' x) by exact X. cbn [andb]. destruct (aget x' (px_cli q)); reflexivity.
      * destruct (Nat.eqb_spec x' x) as [X|X]; [subst x'; rewrite B; cbn [andb]; destruct (eqb k' k); reflexivity|reflexivity].
    + rewrite (neq_eqb p' p) by exact P. reflexivity.
  - injection E as <-. destruct (Nat.eqb_spec p' p) as [P|P]; [subst p'; rewrite A; cbn [andb]; destruct (Nat.eqb x' x && eqb k' k)%bool; reflexivity|reflexivity].
Qed.
Lemma ses_step o s s' p x k : ngood s -> dn_step o s = Some s' -> (forall p' x' k', ~ is_fail o p' x' k') -> o <> DAt p (PGo x) ->
  match ses_at s p x k with
  | Some nz => ses_at s' p x k = Some nz
  | None => forall nm z, ses_at s' p x k = Some (nm, z) -> ss_failed z = false /\ exists po, o = DAt p po
  end.
Proof.
  intros G E NF NG. unfold ses_at. destruct (the_client s p x) as [[q d]|] eqn:T.
  - apply client_at in T. destruct T as [A B]. destruct (SdsProofs.proc_next o s s' p q E A) as (q' & A' & D).
    destruct D as [[-> _]|(po & out & -> & PS)].
    + rewrite (proj2 (client_at s' p x q d) (conj A' B)). destruct (aget k (cx_ses d)); [reflexivity|]. intros nm z X. discriminate.
    + assert (NG' : po <> PGo x) by congruence. destruct (SdsProofs.cli_next _ _ _ _ _ _ _ (G p q A) PS B NG') as (d' & B'). rewrite (proj2 (client_at s' p x q' d') (conj A' B')).
      destruct (SdsProofs.cli_step _ _ _ _ _ _ _ (G p q A) PS B') as [(d0 & B0 & M)|(nm & _ & _ & X)]; [|congruence]. rewrite B in B0. injection B0 as <-.
      destruct (move_ses _ _ _ _ _ _ k M) as (N & H). rewrite N. destruct (aget k (cx_ses d)) as [z|].
      * destruct H as (z' & -> & _ & _ & [(-> & _)|[(X & _)| ->]]); try reflexivity. destruct (NF p x k). unfold is_fail. congruence.
      * intros nm z. destruct (aget k (cx_ses d')) as [z'|]; [|discriminate]. intros X. injection X as _ <-. split; [apply H; reflexivity|eauto].
  - intros nm z. destruct (the_client s' p x) as [[q' d']|] eqn:T'; [|discriminate]. destruct (aget k (cx_ses d')) as [z'|] eqn:K; [|discriminate]. intros X. exfalso. clear X.
    apply client_at in T'. destruct T' as [A' B']. destruct (SdsProofs.proc_step o s s' p q' E A') as [[A _]|[(c & -> & [[_ ->]|A])|(po & q & out & -> & A & PS & _)]].
    + rewrite (proj2 (client_at s p x q' d') (conj A B')) in T. discriminate.
    + cbn in B'. discriminate.
    + rewrite (proj2 (client_at s p x q' d') (conj A B')) in T. discriminate.
    + destruct (SdsProofs.cli_step _ _ _ _ _ _ _ (G p q A) PS B') as [(d0 & B0 & _)|(nm0 & _ & -> & _)]; [|discriminate].
      rewrite (proj2 (client_at s p x q d0) (conj A B0)) in T. discriminate.
Qed.
Lemma ses_gone s s' p x k : dn_step (DAt p (PGo x)) s = Some s' -> ses_at s' p x k = None.
Proof.
  cbn [dn_step]. unfold ses_at, the_client. destruct (aget p (dn_procs s)) as [q|] eqn:A.
  - cbn [px_step]. intros E. injection E as <-. cbn [dn_procs]. rewrite aget_aset_same. cbn [px_cli with_cli]. rewrite aget_adel, eqb_refl. reflexivity.
  - intros E. injection E as <-. rewrite A. reflexivity.
Qed.
Lemma ses_others s s' p x p' x' k : ngood s -> dn_step (DAt p (PGo x)) s = Some s' -> (p' <> p \/ x' <> x) -> ses_at s' p' x' k = ses_at s p' x' k.
Proof.
  intros G E N. cbn [dn_step] in E. unfold ses_at, the_client. destruct (aget p (dn_procs s)) as [q|] eqn:A; [|injection E as <-; reflexivity].
  cbn [px_step] in E. injection E as <-. cbn [dn_procs]. rewrite aget_aset. destruct (eqb p' p) eqn:P; [|reflexivity]. apply eqb_true in P. subst p'. rewrite A. cbn [px_cli with_cli].
  rewrite aget_adel. destruct N as [N|N]; [congruence|]. rewrite (neq_eqb x' x) by exact N. destruct (aget x' (px_cli q)); reflexivity.
Qed.
(** The new sessions. *)
Definition ckey (c : wcon) : nat * nat * text := (co_proc c, co_x c, co_key c).
Lemma opened_in o s s' c : ngood s' -> (In c (opened o s s') <-> exists p po x k nm z, o = DAt p po /\ ses_at s' p x k = Some (nm, z) /\ ses_at s p x k = None /\ c = co_new p x nm k z).
Proof.
  intros G. split.
  - destruct o as [|p po]; [intros []|]. unfold opened. destruct (aget p (dn_procs s')) as [q|] eqn:A; [|intros []]. intros I1. apply in_flat_map in I1. destruct I1 as ([x d] & I1 & I2). cbn [fst snd] in I2.
    unfold made in I2. apply in_flat_map in I2. destruct I2 as ([k z] & I2 & I3). cbn [fst snd] in I3. destruct (had s p x k) eqn:H; [destruct I3|]. destruct I3 as [<-|[]].
    exists p, po, x, k, (cx_name d), z. split; [reflexivity|]. split; [|split; [rewrite had_ses in H; destruct (ses_at s p x k); [discriminate|reflexivity]|reflexivity]].
    apply ses_session; [exact G|]. exists (px_cfg q), d. split; [exists q; split; [exact A|]; split; [reflexivity|apply in_aget; [apply (pg_cli _ (G p q A))|exact I1]]|]. auto.
  - intros (p & po & x & k & nm & z & -> & S1 & S0 & ->). apply ses_session in S1; [|exact G]. destruct S1 as (c & d & (q & A & _ & B) & S1 & ->). unfold opened. rewrite A.
    apply in_flat_map. exists (x, d). split; [apply aget_in, B|]. cbn [fst snd]. unfold made. apply in_flat_map. exists (k, z). split; [exact S1|]. cbn [fst snd]. rewrite had_ses, S0. left. reflexivity.
Qed.
Lemma nodup_flat {A B K} (f : A -> list B) (g : B -> K) (kk : A -> K -> Prop) l : NoDup l -> (forall a, In a l -> NoDup (map g (f a))) ->
  (forall a b, In a l -> In b (f a) -> kk a (g b)) -> (forall a a' z, In a l -> In a' l -> kk a z -> kk a' z -> a = a') -> NoDup (map g (flat_map f l)).
Proof.
  induction l as [|a l IH]; intros ND EACH TAG DIS; cbn; [constructor|]. inversion_clear ND as [|? ? NI ND']. rewrite map_app.
  assert (IH' : NoDup (map g (flat_map f l))) by (apply IH; auto with datatypes; intros a0 a' z X Y; apply DIS; right; assumption).
  assert (EA : NoDup (map g (f a))) by (apply EACH; left; reflexivity).
  revert EA. assert (TA : forall b, In b (f a) -> kk a (g b)) by (intros b X; apply TAG; [left; reflexivity|exact X]). revert TA. generalize (f a). intros fa TA EA. induction fa as [|b fa IHf]; cbn; [exact IH'|].
  cbn in EA. inversion_clear EA as [|? ? N1 N2]. constructor; [|apply IHf; [intros b' X; apply TA; right; exact X|exact N2]].
  intros I1. apply in_app_iff in I1. destruct I1 as [I1|I1]; [contradiction|]. apply in_map_iff in I1. destruct I1 as (b' & E & I1). apply in_flat_map in I1. destruct I1 as (a' & J1 & J2).
  apply NI. replace a with a'; [exact J1|]. apply (DIS a' a (g b')); [right; exact J1|left; reflexivity|apply TAG; [right; exact J1|exact J2]|rewrite E; apply TA; left; reflexivity].
Qed.
Lemma nodup_keys {K V} `{EqDec K} (l : list (K * V)) : NoDup (keys l) -> NoDup l.
Proof. apply NoDup_map_inv. Qed.
Lemma opened_nodup o s s' : ngood s' -> NoDup (map ckey (opened o s s')).
Proof.
  intros G. destruct o as [|p po]; [constructor|]. unfold opened. destruct (aget p (dn_procs s')) as [q|] eqn:A; [|constructor].
  apply (nodup_flat _ _ (fun xd z => snd (fst z) = fst xd)).
  - apply nodup_keys, (pg_cli _ (G p q A)).
  - intros [x d] I1. cbn [fst snd]. unfold made. apply (nodup_flat _ _ (fun kz z => snd z = fst kz)).
    + apply nodup_keys, (cg_ses _ (pg_each _ (G p q A) x d I1)).
    + intros [k z] _. destruct (had s p x (fst (k, z))); cbn; [constructor|]. constructor; [intros []|constructor].
    + intros [k z] b _ I2. destruct (had s p x (fst (k, z))); [destruct I2|]. destruct I2 as [<-|[]]. reflexivity.
    + intros [k z] [k' z'] w J1 J2 E1 E2. cbn in E1, E2. assert (k = k') by congruence. subst k'. pose proof (cg_ses _ (pg_each _ (G p q A) x d I1)) as ND.
      pose proof (in_aget _ _ _ ND J1) as Q1. pose proof (in_aget _ _ _ ND J2) as Q2. congruence.
  - intros [x d] b I1 I2. cbn [fst snd] in *. unfold made in I2. apply in_flat_map in I2. destruct I2 as ([k z] & _ & I2). destruct (had s p x (fst (k, z))); [destruct I2|]. destruct I2 as [<-|[]]. reflexivity.
  - intros [x d] [x' d'] w J1 J2 E1 E2. cbn in E1, E2. assert (x = x') by congruence. subst x'. pose proof (pg_cli _ (G p q A)) as ND.
    pose proof (in_aget _ _ _ ND J1) as Q1. pose proof (in_aget _ _ _ ND J2) as Q2. congruence.
Qed.

(** ** When sessions fail *)
Definition pfail (c : cli) : bool := match c_phase c with PFailed => true | _ => false end.
Lemma c_fails op s s' e : c_step op s = Some (s', e) -> pfail s = true -> pfail s' = true.
Proof.
  unfold pfail. intros E F. destruct (c_phase s) eqn:P; try discriminate. clear F. destruct op; cbn [c_step] in E; rewrite ?P in E; try discriminate.
  - destruct (c_stopped s); injection E as <- _; cbn; rewrite ?P; reflexivity.
  - injection E as <- _. cbn. rewrite ?P. reflexivity.
  - destruct (c_posts s) as [|[c|] ps]; [discriminate|injection E as <- _; cbn; rewrite ?P; reflexivity|]. destruct (c_queue s); injection E as <- _; cbn; rewrite ?P; reflexivity.
  - destruct (c_cur s) as [[c o|c o]|]; try discriminate. destruct ok; [destruct o; [|discriminate]|]; injection E as <- _; cbn; rewrite ?P; reflexivity.
  - destruct (c_cur s) as [[c o|c o]|]; try discriminate. unfold with_events in E. destruct r; try destruct o; try discriminate; injection E as <- _; unfold next, loss; cbn; rewrite ?P; cbn; rewrite ?P; try reflexivity.
    all: destruct (c_queue s); cbn; rewrite ?P; reflexivity.
  - destruct (nth_error (c_peeks s) k) as [o|]; [|discriminate]. destruct ok; [destruct o; [|discriminate]; injection E as <- _; cbn; rewrite ?P; reflexivity|]. unfold loss in E. cbn in E. rewrite P in E. injection E as <- _. cbn. rewrite ?P. reflexivity.
  - destruct (c_losses s); [discriminate|]. unfold loss in E. cbn in E. rewrite P in E. injection E as <- _. cbn. rewrite ?P. reflexivity.
Qed.
Lemma client_cli op s s' e : client op s = Some (s', e) -> exists ev, c_step op (x_cli s) = Some (x_cli s', ev).
Proof.
  unfold client. destruct (c_step op (x_cli s)) as [[c ev]|]; [|discriminate]. unfold write_request. destruct (started ev _); intros E; injection E as <- _; exists ev; reflexivity.
Qed.
Lemma reply_cli ev s : x_cli (fst (reply ev s)) = x_cli s.
Proof. unfold reply. destruct (x_sess s); try reflexivity. destruct ev as [|[| |k1 b1| |] [|]]; try reflexivity. destruct (Nat.eqb k1 k); reflexivity. Qed.
Lemma serve_cli op s s' e : serve op s = Some (s', e) -> x_cli s' = x_cli s.
Proof.
  unfold serve. destruct (m_step op (x_server s)) as [[v ev]|]; [|discriminate]. destruct (reply ev (set_server v s)) as [s1 o] eqn:R. intros E; injection E as <- _.
  change s1 with (fst (s1, o)). rewrite <- R, reply_cli. reflexivity.
Qed.
Lemma x_calm o r r' e : match o with XServerByte | XServer _ | XLost => True | _ => False end -> x_step o r = Some (r', e) -> x_cli r' = x_cli r.
Proof.
  destruct o as [bs|op| | |op|]; intros []; cbn [x_step].
  - destruct (x_up r) as [|b bs]; [discriminate|]. destruct (x_sess r); try discriminate.
    + destruct (push (x_sread r) b) as [rd|m]; [intros E; injection E as <- _; reflexivity|]. destruct (server_choice v_min v_max m); intros E; injection E as <- _; reflexivity.
    + destruct (push (x_sread r) b) as [rd|m]; [intros E; injection E as <- _; reflexivity|]. destruct (Z.eqb _ _); [|intros E; injection E as <- _; reflexivity].
      destruct (serve _ _) as [[s1 o1]|] eqn:S1; [|discriminate]. intros E; injection E as <- _. apply (serve_cli _ _ _ _ S1).
  - apply serve_cli.
  - destruct (x_sess r); try discriminate; intros E; injection E as <- _; reflexivity.
Qed.
Lemma x_call bs r r' e : x_step (XCall bs) r = Some (r', e) -> pfail (x_cli r') = pfail (x_cli r).
Proof. cbn [x_step c_step]. destruct (c_stopped (x_cli r)); intros E; injection E as <- _; reflexivity. Qed.
Lemma x_fails o r r' e : x_step o r = Some (r', e) -> pfail (x_cli r) = true -> pfail (x_cli r') = true.
Proof.
  intros E F. destruct o as [bs|op| | |op|].
  4-6: apply x_calm in E; [rewrite E; exact F|exact Logic.I].
  - rewrite (x_call _ _ _ _ E). exact F.
  - cbn [x_step] in E. destruct (with_data op); [discriminate|]. destruct (client op r) as [[s1 o1]|] eqn:C; [|discriminate]. destruct (client_cli _ _ _ _ C) as (ev & C1).
    pose proof (c_fails _ _ _ _ C1 F) as F1. destruct op as [| | | |[|]| | | | | |]; try (injection E as <- _; exact F1). destruct (c_phase (x_cli s1)) as [| |[|]| | |]; injection E as <- _; exact F1.
  - cbn [x_step] in E. destruct (x_down r) as [|b bs]; [discriminate|]. unfold pfail in F. destruct (c_phase (x_cli r)) eqn:P; try discriminate. destruct (c_cur (x_cli r)) as [[c0 o0|c0 [|]]|]; try discriminate.
    destruct (push (x_cread r) b) as [rd|m]; [injection E as <- _; cbn; unfold pfail; rewrite P; reflexivity|]. destruct (Z.eqb _ _).
    + destruct (client _ _) as [[s1 o1]|] eqn:C; [|discriminate]. injection E as <- _. destruct (client_cli _ _ _ _ C) as (ev & C1). apply (c_fails _ _ _ _ C1). cbn. unfold pfail. rewrite P. reflexivity.
    + destruct (client_cli _ _ _ _ E) as (ev & C1). apply (c_fails _ _ _ _ C1). cbn. unfold pfail. rewrite P. reflexivity.
Qed.

(** ** Sessions of the discovery and connections *)
Record INVC (fl : nat -> wcon -> bool) (hist : list dop) (n : dnet) (cl : list wcon) : Prop := {
  n_ses : forall p x k nm z, ses_at n p x k = Some (nm, z) -> exists i c, nth_error cl i = Some c /\ co_open c = true /\ co_proc c = p /\ co_x c = x /\ co_key c = k /\ co_name c = nm /\
    ss_ends (co_ses c) = ss_ends z /\ ss_proto (co_ses c) = ss_proto z /\ fl i c = ss_failed z;
  n_open : forall i c, nth_error cl i = Some c -> co_open c = true -> exists nz, ses_at n (co_proc c) (co_x c) (co_key c) = Some nz;
  n_uniq : forall i j c d, nth_error cl i = Some c -> nth_error cl j = Some d -> co_open c = true -> co_open d = true -> ckey c = ckey d -> i = j;
  n_from : forall i c, nth_error cl i = Some c -> exists ops1 ops2 s1, hist = ops1 ++ ops2 /\ SdsSpec.dreach ops1 s1 /\ ses_at s1 (co_proc c) (co_x c) (co_key c) = Some (co_name c, co_ses c) }.
Definition flag (_ : nat) (c : wcon) : bool := failed c.
Lemma failed_pfail c : failed c = pfail (x_cli (co_rpc c)). Proof. reflexivity. Qed.
(** Connections change, but not the sessions they belong to. *)
Definition still (fl fl' : nat -> wcon -> bool) (n : nat) (c c' : wcon) : Prop :=
  co_proc c' = co_proc c /\ co_x c' = co_x c /\ co_name c' = co_name c /\ co_key c' = co_key c /\ co_ses c' = co_ses c /\ co_open c' = co_open c /\ (co_open c = true -> fl' n c' = fl n c).
Lemma c_still fl fl' hist n cl cl' : INVC fl hist n cl -> sim_cl (still fl fl') cl cl' -> INVC fl' hist n cl'.
Proof.
  intros [A B C D] S1. constructor.
  - intros p x k nm z E. destruct (A _ _ _ _ _ E) as (i & c & N & O & E1 & E2 & E3 & E4 & E5 & E6 & E7). destruct (sim_cl_fwd _ _ _ _ _ S1 N) as (c' & N' & T1 & T2 & T3 & T4 & T5 & T6 & T7).
    exists i, c'. rewrite T1, T2, T3, T4, T5, T6, (T7 O). auto 10.
  - intros i c' N' O. destruct (sim_cl_back _ _ _ _ _ S1 N') as (c & N & T1 & T2 & T3 & T4 & T5 & T6 & T7). rewrite T1, T2, T4. apply (B i c N). congruence.
  - intros i j c' d' N1 N2 O1 O2 K. destruct (sim_cl_back _ _ _ _ _ S1 N1) as (c & M1 & T1 & T2 & T3 & T4 & T5 & T6 & T7). destruct (sim_cl_back _ _ _ _ _ S1 N2) as (d & M2 & U1 & U2 & U3 & U4 & U5 & U6 & U7).
    apply (C i j c d); auto; try congruence. unfold ckey in *. congruence.
  - intros i c' N'. destruct (sim_cl_back _ _ _ _ _ S1 N') as (c & N & T1 & T2 & T3 & T4 & T5 & T6 & T7). rewrite T1, T2, T3, T4, T5. apply (D i c N).
Qed.
Lemma nth_nodup {A K} (g : A -> K) l i j a b : NoDup (map g l) -> nth_error l i = Some a -> nth_error l j = Some b -> g a = g b -> i = j.
Proof.
  intros ND A1 B1 E. apply (proj1 (NoDup_nth_error (map g l)) ND).
  - rewrite map_length. apply nth_error_Some. congruence.
  - rewrite !nth_error_map, A1, B1. cbn. congruence.
Qed.
Lemma nth_parts {A} (l l' : list A) n b : nth_error (l ++ l') n = Some b -> nth_error l n = Some b \/ (length l <= n /\ nth_error l' (n - length l) = Some b).
Proof. destruct (Nat.ltb_spec n (length l)); [rewrite nth_error_app1 by assumption; auto|rewrite nth_error_app2 by assumption; auto]. Qed.
(** The general step: sessions that were there stay, except for those in [go]. *)
Lemma c_disc hist o n n' cl : INVC flag hist n cl -> SdsSpec.dreach hist n -> dn_step o n = Some n' -> (forall p x k, ~ is_fail o p x k) -> (forall p x, o <> DAt p (PGo x)) ->
  INVC flag (hist ++ [o]) n' (cl ++ opened o n n').
Proof.
  intros [A B C D] R E NF NG. pose proof (SdsProofs.reach_good _ _ R) as G. assert (R' : SdsSpec.dreach (hist ++ [o]) n') by (apply SdsProofs.reach_snoc; eauto). pose proof (SdsProofs.reach_good _ _ R') as G'.
  assert (ST : forall p x k, match ses_at n p x k with Some nz => ses_at n' p x k = Some nz | None => forall nm z, ses_at n' p x k = Some (nm, z) -> ss_failed z = false /\ exists po, o = DAt p po end)
    by (intros p x k; apply (ses_step o n n' p x k G E NF (NG p x))).
  constructor.
  - intros p x k nm z S1. specialize (ST p x k). destruct (ses_at n p x k) as [nz|] eqn:S0.
    + rewrite ST in S1. injection S1 as ->. destruct (A _ _ _ _ _ S0) as (i & c & N & H). exists i, c. split; [apply nth_old, N|exact H].
    + destruct (ST _ _ S1) as (F & po & ->). assert (I1 : In (co_new p x nm k z) (opened (DAt p po) n n')) by (apply opened_in; [exact G'|]; exists p, po, x, k, nm, z; auto).
      apply In_nth_error in I1. destruct I1 as (j & J). exists (length cl + j), (co_new p x nm k z). split; [rewrite nth_error_app2 by lia; replace (length cl + j - length cl) with j by lia; exact J|].
      rewrite F. cbn. auto 10.
  - intros i c N O. destruct (nth_new _ _ _ _ N) as [N0|[_ I1]].
    + destruct (B i c N0 O) as (nz & S0). specialize (ST (co_proc c) (co_x c) (co_key c)). rewrite S0 in ST. eauto.
    + apply opened_in in I1; [|exact G']. destruct I1 as (p & po & x & k & nm & z & _ & S1 & _ & ->). cbn. eauto.
  - assert (NEW : forall i j c d, nth_error cl i = Some c -> nth_error (opened o n n') j = Some d -> co_open c = true -> ckey c = ckey d -> False).
    { intros i j c d N1 N2 O K. destruct (B i c N1 O) as (nz & S0). apply nth_error_In in N2. apply opened_in in N2; [|exact G']. destruct N2 as (p & po & x & k & nm & z & _ & _ & S1 & ->). unfold ckey in K. cbn in K. congruence. }
    intros i j c d N1 N2 O1 O2 K. destruct (nth_parts _ _ _ _ N1) as [M1|[L1 M1]]; destruct (nth_parts _ _ _ _ N2) as [M2|[L2 M2]].
    + apply (C i j c d); auto.
    + destruct (NEW _ _ _ _ M1 M2 O1 K).
    + destruct (NEW _ _ _ _ M2 M1 O2 (eq_sym K)).
    + assert (i - length cl = j - length cl) by (apply (nth_nodup ckey _ _ _ _ _ (opened_nodup o n n' G') M1 M2 K)). lia.
  - intros i c N. destruct (nth_new _ _ _ _ N) as [N0|[_ I1]].
    + destruct (D i c N0) as (ops1 & ops2 & s1 & -> & H). exists ops1, (ops2 ++ [o]), s1. rewrite app_assoc. auto.
    + apply opened_in in I1; [|exact G']. destruct I1 as (p & po & x & k & nm & z & _ & S1 & _ & ->). cbn. exists (hist ++ [o]), [], n'. rewrite app_nil_r. auto.
Qed.
Lemma opened_nil o n n' : ngood n' -> (forall p x k nm z, ses_at n' p x k = Some (nm, z) -> ses_at n p x k <> None) -> opened o n n' = [].
Proof.
  intros G H. destruct (opened o n n') as [|c l] eqn:E; [reflexivity|]. assert (I1 : In c (opened o n n')) by (rewrite E; left; reflexivity).
  apply opened_in in I1; [|exact G]. destruct I1 as (p & po & x & k & nm & z & _ & S1 & S0 & _). destruct (H _ _ _ _ _ S1 S0).
Qed.
Lemma n_longer fl hist n cl o : INVC fl hist n cl -> forall i c, nth_error cl i = Some c -> exists ops1 ops2 s1, hist ++ [o] = ops1 ++ ops2 /\ SdsSpec.dreach ops1 s1 /\ ses_at s1 (co_proc c) (co_x c) (co_key c) = Some (co_name c, co_ses c).
Proof. intros H i c N. destruct (n_from _ _ _ _ H i c N) as (ops1 & ops2 & s1 & -> & H1). exists ops1, (ops2 ++ [o]), s1. rewrite app_assoc. auto. Qed.
(** A client goes. *)
Lemma c_go hist p x n n' cl : INVC flag hist n cl -> SdsSpec.dreach hist n -> dn_step (DAt p (PGo x)) n = Some n' ->
  opened (DAt p (PGo x)) n n' = [] /\ INVC flag (hist ++ [DAt p (PGo x)]) n' (map (fun c => if is_con p x c then co_close (co_do (XClient CStop) c) else c) cl).
Proof.
  intros I1 R E. pose proof (SdsProofs.reach_good _ _ R) as G. assert (R' : SdsSpec.dreach (hist ++ [DAt p (PGo x)]) n') by (apply SdsProofs.reach_snoc; eauto). pose proof (SdsProofs.reach_good _ _ R') as G'.
  assert (ST : forall p' x' k, ses_at n' p' x' k = if (Nat.eqb p' p && Nat.eqb x' x)%bool then None else ses_at n p' x' k).
  { intros p' x' k. destruct (Nat.eqb_spec p' p) as [P|P]; [destruct (Nat.eqb_spec x' x) as [X|X]|]; cbn [andb]; [subst; apply (ses_gone n n' p x k E)|apply (ses_others n n' p x p' x' k G E); auto|apply (ses_others n n' p x p' x' k G E); auto]. }
  split. { apply opened_nil; [exact G'|]. intros p' x' k nm z. rewrite ST. destruct (_ && _)%bool; [discriminate|congruence]. }
  assert (FI : forall c, let f := (if is_con p x c then co_close (co_do (XClient CStop) c) else c) in co_proc f = co_proc c /\ co_x f = co_x c /\ co_name f = co_name c /\ co_key f = co_key c /\ co_ses f = co_ses c /\
     (co_open f = true -> co_open c = true /\ f = c /\ (Nat.eqb (co_proc c) p && Nat.eqb (co_x c) x)%bool = false)).
  { intros c. cbn. destruct (is_con p x c) eqn:IC.
    - assert (DI : ident c (co_do (XClient CStop) c)) by (unfold co_do, co_step; destruct (x_step _ _) as [[r e]|]; repeat split). destruct DI as (D1 & D2 & D3 & D4 & D5 & D6). cbn. repeat (split; [assumption|]). discriminate.
    - repeat (split; [reflexivity|]). intros O. split; [exact O|]. split; [reflexivity|]. unfold is_con in IC. rewrite O in IC. exact IC. }
  pose proof (n_longer _ _ _ _ (DAt p (PGo x)) I1) as D'. destruct I1 as [A B C D]. set (f := fun c => if is_con p x c then co_close (co_do (XClient CStop) c) else c) in *.
  constructor.
  - intros p' x' k nm z. rewrite ST. destruct (_ && _)%bool eqn:PX; [discriminate|]. intros S0. destruct (A _ _ _ _ _ S0) as (i & c & N & O & E1 & E2 & E3 & H). exists i, c. split; [|auto].
    rewrite nth_error_map, N. cbn. unfold f, is_con. rewrite O, E1, E2. cbn [andb]. rewrite PX. reflexivity.
  - intros i c N O. rewrite nth_error_map in N. destruct (nth_error cl i) as [c0|] eqn:N0; [|discriminate]. cbn in N. injection N as <-. destruct (FI c0) as (F1 & F2 & F3 & F4 & F5 & F6). fold (f c0) in F1, F2, F3, F4, F5, F6.
    destruct (F6 O) as (O0 & EQ & PX). rewrite EQ, ST, PX. apply (B i c0 N0 O0).
  - intros i j c d N1 N2 O1 O2 K. rewrite nth_error_map in N1, N2. destruct (nth_error cl i) as [c0|] eqn:M1; [|discriminate]. destruct (nth_error cl j) as [d0|] eqn:M2; [|discriminate]. cbn in N1, N2. injection N1 as <-. injection N2 as <-.
    destruct (FI c0) as (_ & _ & _ & _ & _ & F6). destruct (FI d0) as (_ & _ & _ & _ & _ & H6). destruct (F6 O1) as (P1 & Q1 & _). destruct (H6 O2) as (P2 & Q2 & _). apply (C i j c0 d0); auto. fold (f c0) in Q1. fold (f d0) in Q2. congruence.
  - intros i c N. rewrite nth_error_map in N. destruct (nth_error cl i) as [c0|] eqn:N0; [|discriminate]. cbn in N. injection N as <-. destruct (FI c0) as (F1 & F2 & F3 & F4 & F5 & F6). fold (f c0) in F1, F2, F3, F4, F5, F6.
    rewrite F1, F2, F3, F4, F5. apply (D' i c0 N0).
Qed.
(** A session fails. *)
Lemma c_fail hist n n' cl m c : nth_error cl m = Some c -> co_open c = true -> failed c = true -> INVC (fun j d => if Nat.eqb j m then false else failed d) hist n cl -> SdsSpec.dreach hist n ->
  dn_step (DAt (co_proc c) (PFail (co_x c) (co_key c))) n = Some n' ->
  opened (DAt (co_proc c) (PFail (co_x c) (co_key c))) n n' = [] /\ INVC flag (hist ++ [DAt (co_proc c) (PFail (co_x c) (co_key c))]) n' cl.
Proof.
  intros NM OM FM I1 R E. set (o := DAt (co_proc c) (PFail (co_x c) (co_key c))) in *. assert (R' : SdsSpec.dreach (hist ++ [o]) n') by (apply SdsProofs.reach_snoc; eauto). pose proof (SdsProofs.reach_good _ _ R') as G'.
  pose proof (fail_ses _ _ _ _ _ E) as ST. split.
  { apply opened_nil; [exact G'|]. intros p' x' k nm z. rewrite ST. destruct (_ && _)%bool; [destruct (ses_at n p' x' k); discriminate|congruence]. }
  pose proof (n_longer _ _ _ _ o I1) as D'. destruct I1 as [A B C D]. constructor.
  - intros p' x' k nm z. rewrite ST. destruct (_ && _)%bool eqn:PX.
    + rewrite !andb_true_iff, !Nat.eqb_eq in PX. destruct PX as [[P X] K]. apply eqb_true in K. subst p' x' k. destruct (ses_at n _ _ _) as [[nm0 z0]|] eqn:S0; [|discriminate]. cbn. intros X. injection X as <- <-.
      destruct (A _ _ _ _ _ S0) as (i & c0 & N & O & E1 & E2 & E3 & E4 & E5 & E6 & E7). assert (i = m) by (apply (C i m c0 c); auto; unfold ckey; congruence). subst i. rewrite NM in N. injection N as <-.
      exists m, c. cbn. unfold flag. auto 10.
    + intros S0. destruct (A _ _ _ _ _ S0) as (i & c0 & N & O & E1 & E2 & E3 & E4 & E5 & E6 & E7). exists i, c0. repeat (split; [assumption|]). unfold flag. rewrite <- E7. destruct (Nat.eqb_spec i m) as [J|J]; [|reflexivity].
      subst i. rewrite NM in N. injection N as <-. subst p' x' k. rewrite !Nat.eqb_refl, eqb_refl in PX. discriminate.
  - intros i d N O. destruct (B i d N O) as (nz & S0). rewrite ST, S0. destruct (_ && _)%bool; cbn; eauto.
  - exact C.
  - exact D'.
Qed.

(** ** Servers *)
Definition fsrv (n : dnet) (p x : nat) : option (dcfg * dattr) :=
  match aget p (dn_procs n) with Some q => match aget x (px_srv q) with Some e => Some (px_cfg q, SdsSpec.facts (px_cfg q) e) | None => None end | None => None end.
Lemma server_fsrv n p x c e : SdsSpec.server n p x c e -> fsrv n p x = Some (c, SdsSpec.facts c e).
Proof. intros (q & A & <- & B). unfold fsrv. rewrite A, B. reflexivity. Qed.
Lemma px_srv_same sent o q q' out : pgood q -> px_step sent o q = Some (q', out) -> match o with PServe _ _ _ _ | PMethods _ _ | PEnd _ => True | _ => px_srv q' = px_srv q end.
Proof.
  intros PG. destruct o as [y name id r|y ms|y|y name|y h|y| | |k now|y|y k]; try (intros _; exact Logic.I).
  6:{ destruct (SdsProofs.hear_split sent q k now PG) as [(m & q1 & S1 & E1 & E & _)|[N E]]; rewrite E; intros X; injection X as <- _; [|reflexivity].
      destruct (SdsProofs.apply_cases _ _ _ _ E1) as (r1 & _ & _ & S2 & _). exact S2. }
  all: cbn [px_step]; unfold on_cli; try destruct (aget y (px_cli q)); intros X; injection X as <- _; reflexivity.
Qed.
Definition at_srv (o : dop) (p x : nat) : bool :=
  match o with DAt p0 (PServe x0 _ _ _) | DAt p0 (PEnd x0) => (Nat.eqb p p0 && Nat.eqb x x0)%bool | _ => false end.
Lemma fsrv_keep o n n' p x : ngood n -> dn_step o n = Some n' -> at_srv o p x = false -> fsrv n' p x = fsrv n p x.
Proof.
  intros G E N. unfold fsrv. destruct (aget p (dn_procs n')) as [q'|] eqn:A'.
  - destruct (SdsProofs.proc_step o n n' p q' E A') as [[A _]|[(c & -> & [[A ->]|A])|(po & q & out & -> & A & PS & _)]]; rewrite A; try reflexivity.
    pose proof (SdsProofs.cfg_step _ _ _ _ _ (G p q A) PS) as CF. rewrite CF. pose proof (px_srv_same _ _ _ _ _ (G p q A) PS) as S1.
    destruct po as [y name id r|y ms|y|y name|y h|y| | |k now|y|y k]; try (rewrite S1; reflexivity); clear S1; cbn in N; rewrite ?Nat.eqb_refl in N; cbn [andb] in N; cbn [px_step] in PS.
    + destruct (aget y (px_srv q)); injection PS as <- _; [reflexivity|]. cbn. rewrite aget_aset. apply Nat.eqb_neq in N. rewrite (neq_eqb x y) by exact N. reflexivity.
    + destruct (aget y (px_srv q)) as [e|] eqn:Y; injection PS as <- _; [|reflexivity]. cbn. rewrite aget_aset. destruct (eqb x y) eqn:K; [|reflexivity]. apply eqb_true in K. subst y. rewrite Y. reflexivity.
    + destruct (aget y (px_srv q)) as [e|] eqn:Y; injection PS as <- _; [|reflexivity]. cbn. rewrite aget_adel. apply Nat.eqb_neq in N. rewrite (neq_eqb x y) by exact N. reflexivity.
  - destruct (aget p (dn_procs n)) as [q|] eqn:A; [|reflexivity]. destruct (SdsProofs.proc_next o n n' p q E A) as (q' & A2 & _). congruence.
Qed.
Lemma fsrv_end n n' p x : dn_step (DAt p (PEnd x)) n = Some n' -> fsrv n' p x = None.
Proof.
  cbn [dn_step]. unfold fsrv. destruct (aget p (dn_procs n)) as [q|] eqn:A; [|intros E; injection E as <-; rewrite A; reflexivity]. cbn [px_step]. destruct (aget x (px_srv q)) as [e|] eqn:B.
  - intros E; injection E as <-. cbn. rewrite aget_aset_same. cbn. rewrite aget_adel, eqb_refl. reflexivity.
  - intros E; injection E as <-. cbn. rewrite aget_aset_same, B. reflexivity.
Qed.
Lemma fsrv_serve n n' p x name id r : dn_step (DAt p (PServe x name id r)) n = Some n' ->
  fsrv n' p x = match aget p (dn_procs n) with
                | Some q => match fsrv n p x with Some v => Some v | None => Some (px_cfg q, SdsSpec.facts (px_cfg q) (DSrv name id r)) end
                | None => None end.
Proof.
  cbn [dn_step]. unfold fsrv. destruct (aget p (dn_procs n)) as [q|] eqn:A; [|intros E; injection E as <-; rewrite A; reflexivity]. cbn [px_step]. destruct (aget x (px_srv q)) as [e|] eqn:B.
  - intros E; injection E as <-. cbn. rewrite aget_aset_same, B. reflexivity.
  - intros E; injection E as <-. cbn. rewrite aget_aset_same. cbn. rewrite aget_aset_same. reflexivity.
Qed.
Definition port1 (t : winst) : Z := sx_port1 (wi_cfg t) (wi_srv t).
Record INVS (hist : list dop) (n : dnet) (il : list winst) : Prop := {
  v_srv : forall p x c a, fsrv n p x = Some (c, a) -> exists i t, nth_error il i = Some t /\ wi_up t = true /\ wi_proc t = p /\ wi_x t = x /\ wi_cfg t = c /\ wi_facts t = a;
  v_run : forall i t, nth_error il i = Some t -> wi_up t = true -> fsrv n (wi_proc t) (wi_x t) = Some (wi_cfg t, wi_facts t);
  v_one : forall i j t u, nth_error il i = Some t -> nth_error il j = Some u -> wi_up t = true -> wi_up u = true -> wi_proc t = wi_proc u -> wi_x t = wi_x u -> i = j;
  v_hist : forall ops1 ops2 s1 p x c a, hist = ops1 ++ ops2 -> SdsSpec.dreach ops1 s1 -> fsrv s1 p x = Some (c, a) -> exists i t, nth_error il i = Some t /\ wi_proc t = p /\ wi_x t = x /\ wi_cfg t = c /\ wi_facts t = a;
  v_ports : forall i j t u, nth_error il i = Some t -> nth_error il j = Some u -> wi_up t = true -> wi_up u = true -> pc_host (wi_cfg t) = pc_host (wi_cfg u) -> port1 t = port1 u -> port1 t <> 0%Z -> i = j }.
Lemma hist_snoc {A} (l : list A) o a b : l ++ [o] = a ++ b -> (b = [] /\ a = l ++ [o]) \/ exists b', b = b' ++ [o] /\ l = a ++ b'.
Proof.
  intros E. destruct b as [|z b0] using rev_ind; [left; rewrite app_nil_r in E; auto|]. clear IHb0. right. rewrite app_assoc in E. apply app_inj_tail in E. destruct E as [-> ->]. eauto.
Qed.
(** The running servers stay. *)
Lemma s_same hist o n n' il : INVS hist n il -> SdsSpec.dreach hist n -> dn_step o n = Some n' -> (forall p x, fsrv n' p x = fsrv n p x) -> INVS (hist ++ [o]) n' il.
Proof.
  intros [A B O C D] R E S1. constructor; auto.
  - intros p x c a. rewrite S1. apply A.
  - intros i t N U. rewrite S1. apply (B i t N U).
  - intros ops1 ops2 s1 p x c a H R1 F. destruct (hist_snoc _ _ _ _ H) as [[-> ->]|(b' & -> & ->)].
    + assert (R' : SdsSpec.dreach (hist ++ [o]) n') by (apply SdsProofs.reach_snoc; eauto). rewrite (SdsProofs.reach_fun _ _ _ R1 R'), S1 in F. destruct (A _ _ _ _ F) as (i & t & N & _ & H1). exists i, t. auto.
    + apply (C ops1 b' s1 p x c a); auto.
Qed.
Lemma is_srv_iff p x t : is_srv p x t = true <-> wi_up t = true /\ wi_proc t = p /\ wi_x t = x.
Proof. unfold is_srv. rewrite !andb_true_iff, !Nat.eqb_eq. tauto. Qed.
Lemma s_end hist n n' il p x : INVS hist n il -> SdsSpec.dreach hist n -> dn_step (DAt p (PEnd x)) n = Some n' ->
  INVS (hist ++ [DAt p (PEnd x)]) n' (map (fun t => if is_srv p x t then wi_down t else t) il).
Proof.
  intros [A B O C D] R E. pose proof (SdsProofs.reach_good _ _ R) as G. pose proof (fsrv_end _ _ _ _ E) as FE.
  assert (FO : forall p' x', (Nat.eqb p' p && Nat.eqb x' x)%bool = false -> fsrv n' p' x' = fsrv n p' x') by (intros p' x' H; apply (fsrv_keep _ _ _ _ _ G E); exact H).
  set (f := fun t => if is_srv p x t then wi_down t else t).
  assert (FI : forall t, wi_proc (f t) = wi_proc t /\ wi_x (f t) = wi_x t /\ wi_cfg (f t) = wi_cfg t /\ wi_srv (f t) = wi_srv t /\ (wi_up (f t) = true -> wi_up t = true /\ (Nat.eqb (wi_proc t) p && Nat.eqb (wi_x t) x)%bool = false)).
  { intros t. unfold f. destruct (is_srv p x t) eqn:IS; cbn; repeat (split; [reflexivity|]); [discriminate|]. intros U. split; [exact U|]. unfold is_srv in IS. rewrite U in IS. exact IS. }
  assert (FN : forall i t', nth_error (map f il) i = Some t' -> exists t, nth_error il i = Some t /\ t' = f t).
  { intros i t' N. rewrite nth_error_map in N. destruct (nth_error il i) as [t|]; [|discriminate]. cbn in N. injection N as <-. eauto. }
  assert (FF : forall i t, nth_error il i = Some t -> nth_error (map f il) i = Some (f t)) by (intros i t N; rewrite nth_error_map, N; reflexivity).
  assert (SRV : forall p' x' c a, fsrv n' p' x' = Some (c, a) -> fsrv n p' x' = Some (c, a)).
  { intros p' x' c a F. destruct (Nat.eqb p' p && Nat.eqb x' x)%bool eqn:PX; [rewrite andb_true_iff, !Nat.eqb_eq in PX; destruct PX; subst; congruence|]. rewrite <- (FO _ _ PX). exact F. }
  constructor.
  - intros p' x' c a F. destruct (Nat.eqb p' p && Nat.eqb x' x)%bool eqn:PX; [rewrite andb_true_iff, !Nat.eqb_eq in PX; destruct PX; subst; congruence|]. rewrite (FO _ _ PX) in F.
    destruct (A _ _ _ _ F) as (i & t & N & U & E1 & E2 & E3 & E4). exists i, t. split; [|auto]. rewrite (FF i t N). unfold f, is_srv. rewrite U, E1, E2. cbn [andb]. rewrite PX. reflexivity.
  - intros i t' N U. destruct (FN i t' N) as (t & N0 & ->). destruct (FI t) as (F1 & F2 & F3 & F4 & F5). destruct (F5 U) as [U0 PX]. unfold wi_facts. rewrite F1, F2, F3, F4, (FO _ _ PX). apply (B i t N0 U0).
  - intros i j t' u' N1 N2 U1 U2 P X. destruct (FN i t' N1) as (t & M1 & ->). destruct (FN j u' N2) as (u & M2 & ->). destruct (FI t) as (F1 & F2 & F3 & F4 & F5). destruct (FI u) as (H1 & H2 & H3 & H4 & H5).
    apply (O i j t u); auto; try congruence; [apply F5, U1|apply H5, U2].
  - intros ops1 ops2 s1 p' x' c a H R1 F.
    assert (OLD : exists i t, nth_error il i = Some t /\ wi_proc t = p' /\ wi_x t = x' /\ wi_cfg t = c /\ wi_facts t = a).
    { destruct (hist_snoc _ _ _ _ H) as [[-> ->]|(b' & -> & HH)].
      - assert (R' : SdsSpec.dreach (hist ++ [DAt p (PEnd x)]) n') by (apply SdsProofs.reach_snoc; eauto). rewrite (SdsProofs.reach_fun _ _ _ R1 R') in F. destruct (A _ _ _ _ (SRV _ _ _ _ F)) as (i & t & N & _ & H1). exists i, t. auto.
      - apply (C ops1 b' s1 p' x' c a); auto. }
    destruct OLD as (i & t & N & E1 & E2 & E3 & E4). destruct (FI t) as (F1 & F2 & F3 & F4 & F5). exists i, (f t). unfold wi_facts in *. rewrite F1, F2, F3, F4. auto.
  - intros i j t' u' N1 N2 U1 U2. destruct (FN i t' N1) as (t & M1 & ->). destruct (FN j u' N2) as (u & M2 & ->). destruct (FI t) as (F1 & F2 & F3 & F4 & F5). destruct (FI u) as (H1 & H2 & H3 & H4 & H5).
    unfold port1. rewrite F3, F4, H3, H4. apply (D i j t u); auto; [apply F5, U1|apply H5, U2].
Qed.
Lemma bind_free c e il i u : bindable c e il = true -> nth_error il i = Some u -> wi_up u = true -> pc_host c = pc_host (wi_cfg u) -> sx_port1 c e = port1 u -> port1 u <> 0%Z -> False.
Proof.
  unfold bindable. rewrite andb_true_iff. intros [F _] N U H P Z0. rewrite forallb_forall in F. assert (I1 : In (port1 u) (bound_ports c e)).
  { unfold bound_ports. apply filter_In. split; [right; left; exact P|]. rewrite negb_true_iff. apply Z.eqb_neq, Z0. }
  specialize (F _ I1). rewrite negb_true_iff in F. assert (T : taken (pc_host c) (port1 u) il = true); [|congruence]. unfold taken. apply existsb_exists. exists u. split; [eapply nth_error_In, N|].
  rewrite U, <- H, eqb_refl. cbn [andb]. apply existsb_exists. exists (port1 u). split; [|apply Z.eqb_refl]. unfold bound_ports. apply filter_In. split; [right; left; reflexivity|]. rewrite negb_true_iff. apply Z.eqb_neq, Z0.
Qed.
Lemma s_serve hist n n' il p x q name id r : INVS hist n il -> SdsSpec.dreach hist n -> dn_step (DAt p (PServe x name id r)) n = Some n' -> aget p (dn_procs n) = Some q -> aget x (px_srv q) = None ->
  bindable (px_cfg q) (DSrv name id r) il = true -> INVS (hist ++ [DAt p (PServe x name id r)]) n' (il ++ [wi_new p x (px_cfg q) (DSrv name id r)]).
Proof.
  intros [A B O C D] R E Q X BI. pose proof (SdsProofs.reach_good _ _ R) as G. pose proof (fsrv_serve _ _ _ _ _ _ _ E) as FE. assert (F0 : fsrv n p x = None) by (unfold fsrv; rewrite Q, X; reflexivity). rewrite Q, F0 in FE.
  assert (FO : forall p' x', (Nat.eqb p' p && Nat.eqb x' x)%bool = false -> fsrv n' p' x' = fsrv n p' x') by (intros p' x' H; apply (fsrv_keep _ _ _ _ _ G E); exact H).
  set (t0 := wi_new p x (px_cfg q) (DSrv name id r)). assert (NEW : nth_error (il ++ [t0]) (length il) = Some t0) by (rewrite nth_error_app2, Nat.sub_diag by lia; reflexivity).
  assert (NO : forall i t, nth_error il i = Some t -> wi_up t = true -> wi_proc t = p -> wi_x t = x -> False) by (intros i t N U P1 P2; pose proof (B i t N U) as F1; rewrite P1, P2 in F1; congruence).
  assert (VS : forall p' x' c a, fsrv n' p' x' = Some (c, a) -> exists i t, nth_error (il ++ [t0]) i = Some t /\ wi_up t = true /\ wi_proc t = p' /\ wi_x t = x' /\ wi_cfg t = c /\ wi_facts t = a).
  { intros p' x' c a F. destruct (Nat.eqb p' p && Nat.eqb x' x)%bool eqn:PX.
    - rewrite andb_true_iff, !Nat.eqb_eq in PX. destruct PX. subst p' x'. rewrite FE in F. injection F as <- <-. exists (length il), t0. split; [exact NEW|]. repeat split.
    - rewrite (FO _ _ PX) in F. destruct (A _ _ _ _ F) as (i & t & N & H). exists i, t. split; [apply nth_old, N|exact H]. }
  constructor.
  - exact VS.
  - intros i t N U. destruct (nth_snoc _ _ _ _ N) as [N0|[_ ->]]; [|exact FE]. rewrite (FO (wi_proc t) (wi_x t)); [apply (B i t N0 U)|]. destruct (_ && _)%bool eqn:PX; [|reflexivity].
    rewrite andb_true_iff, !Nat.eqb_eq in PX. destruct PX. destruct (NO i t N0 U); assumption.
  - intros i j t u N1 N2 U1 U2 P1 P2. destruct (nth_snoc _ _ _ _ N1) as [M1|[-> ->]]; destruct (nth_snoc _ _ _ _ N2) as [M2|[-> ->]]; auto.
    + apply (O i j t u); auto.
    + destruct (NO i t M1 U1 P1 P2).
    + destruct (NO j u M2 U2 (eq_sym P1) (eq_sym P2)).
  - intros ops1 ops2 s1 p' x' c a H R1 F. destruct (hist_snoc _ _ _ _ H) as [[-> ->]|(b' & -> & ->)].
    + assert (R' : SdsSpec.dreach (hist ++ [DAt p (PServe x name id r)]) n') by (apply SdsProofs.reach_snoc; eauto). rewrite (SdsProofs.reach_fun _ _ _ R1 R') in F. destruct (VS _ _ _ _ F) as (i & t & N & _ & H1). exists i, t. auto.
    + destruct (C ops1 b' s1 p' x' c a) as (i & t & N & H1); auto. exists i, t. split; [apply nth_old, N|exact H1].
  - intros i j t u N1 N2 U1 U2 H P Z0. destruct (nth_snoc _ _ _ _ N1) as [M1|[-> ->]]; destruct (nth_snoc _ _ _ _ N2) as [M2|[-> ->]]; auto.
    + apply (D i j t u); auto.
    + destruct (bind_free _ _ _ _ _ BI M1 U1); auto.
    + destruct (bind_free _ _ _ _ _ BI M2 U2); auto. congruence.
Qed.
Lemma s_wi hist n il il' : INVS hist n il -> (forall i, match nth_error il i, nth_error il' i with
    | Some t, Some t' => wi_proc t' = wi_proc t /\ wi_x t' = wi_x t /\ wi_cfg t' = wi_cfg t /\ wi_srv t' = wi_srv t /\ wi_up t' = wi_up t | None, None => True | _, _ => False end) -> INVS hist n il'.
Proof.
  intros [A B O C D] S1.
  assert (BK : forall i t', nth_error il' i = Some t' -> exists t, nth_error il i = Some t /\ wi_proc t' = wi_proc t /\ wi_x t' = wi_x t /\ wi_cfg t' = wi_cfg t /\ wi_facts t' = wi_facts t /\ port1 t' = port1 t /\ wi_up t' = wi_up t).
  { intros i t' N. specialize (S1 i). rewrite N in S1. destruct (nth_error il i) as [t|]; [|contradiction]. destruct S1 as (E1 & E2 & E3 & E4 & E5). exists t. unfold wi_facts, port1. rewrite E3, E4. auto 10. }
  assert (FW : forall i t, nth_error il i = Some t -> exists t', nth_error il' i = Some t' /\ wi_proc t' = wi_proc t /\ wi_x t' = wi_x t /\ wi_cfg t' = wi_cfg t /\ wi_facts t' = wi_facts t /\ port1 t' = port1 t /\ wi_up t' = wi_up t).
  { intros i t N. specialize (S1 i). rewrite N in S1. destruct (nth_error il' i) as [t'|]; [|contradiction]. destruct S1 as (E1 & E2 & E3 & E4 & E5). exists t'. unfold wi_facts, port1. rewrite E3, E4. auto 10. }
  constructor.
  - intros p x c a F. destruct (A _ _ _ _ F) as (i & t & N & U & E1 & E2 & E3 & E4). destruct (FW i t N) as (t' & N' & T1 & T2 & T3 & T4 & T5 & T6). exists i, t'. split; [exact N'|]. repeat split; congruence.
  - intros i t' N U. destruct (BK i t' N) as (t & N0 & T1 & T2 & T3 & T4 & T5 & T6). rewrite T1, T2, T3, T4. apply (B i t N0). congruence.
  - intros i j t' u' N1 N2 U1 U2 P X. destruct (BK i t' N1) as (t & M1 & T1 & T2 & T3 & T4 & T5 & T6). destruct (BK j u' N2) as (u & M2 & V1 & V2 & V3 & V4 & V5 & V6). apply (O i j t u); congruence.
  - intros ops1 ops2 s1 p x c a H R1 F. destruct (C ops1 ops2 s1 p x c a H R1 F) as (i & t & N & E1 & E2 & E3 & E4). destruct (FW i t N) as (t' & N' & T1 & T2 & T3 & T4 & T5 & T6). exists i, t'. split; [exact N'|]. repeat split; congruence.
  - intros i j t' u' N1 N2 U1 U2 H P Z0. destruct (BK i t' N1) as (t & M1 & T1 & T2 & T3 & T4 & T5 & T6). destruct (BK j u' N2) as (u & M2 & V1 & V2 & V3 & V4 & V5 & V6). apply (D i j t u); congruence.
Qed.

(** ** All together *)
Definition noted (o : dop) : Prop := exists p x, o = DAt p (PCall x) \/ exists k, o = DAt p (PFail x k).
Record INVN (ops : list wop) (s : wsv) : Prop := {
  w_reach : SdsSpec.dreach (ws_hist s) (ws_net s);
  w_ops : forall o, In o (ws_hist s) -> In (WNet o) ops \/ noted o;
  w_con : INVC flag (ws_hist s) (ws_net s) (ws_cons s);
  w_srv : INVS (ws_hist s) (ws_net s) (ws_insts s) }.
Lemma n_more ops o s : INVN ops s -> INVN (ops ++ [o]) s.
Proof. intros [A B C D]. constructor; auto. intros o0 I1. destruct (B o0 I1); [left; apply in_app_iff; auto|auto]. Qed.
Lemma still_do fl o c n : match o with XCall _ | XServerByte | XServer _ | XLost => True | _ => False end -> (forall d, fl n d = failed d) -> still fl fl n c (co_do o c).
Proof.
  intros O FL. unfold co_do, co_step. destruct (x_step o (co_rpc c)) as [[r e]|] eqn:X; [|repeat split]. repeat (split; [reflexivity|]). intros _. rewrite !FL, !failed_pfail. cbn [co_rpc co_set].
  destruct o as [bs|op| | |op|]; try contradiction; [apply (x_call _ _ _ _ X)|..]; apply x_calm in X; try exact Logic.I; rewrite X; reflexivity.
Qed.
Lemma still_refl fl n c : still fl fl n c c. Proof. repeat split. Qed.
Definition plain (o : dop) : Prop := (forall p x k, ~ is_fail o p x k) /\ (forall p x, o <> DAt p (PGo x)).
Lemma n_disc ops o s s' : INVN ops s -> ws_disc o s = Some s' -> (In (WNet o) ops \/ noted o) -> plain o -> (forall n', dn_step o (ws_net s) = Some n' -> forall p x, fsrv n' p x = fsrv (ws_net s) p x) -> INVN ops s'.
Proof.
  intros [A B C D] E W [P1 P2] F. destruct (disc_shape _ _ _ E) as (n & N & ->). constructor; cbn [ws_hist ws_net ws_cons ws_insts].
  - apply SdsProofs.reach_snoc. eauto.
  - intros o0 I1. apply in_app_iff in I1. destruct I1 as [I1|[<-|[]]]; auto.
  - apply c_disc; auto.
  - apply s_same with (n := ws_net s); auto.
Qed.
Lemma n_ask ops p x l bs s : INVN ops s -> INVN ops (ws_ask p x l bs s).
Proof.
  intros [A B C D]. constructor; cbn [ws_hist ws_net ws_cons ws_insts ws_ask with_cons]; auto. apply (c_still flag flag _ _ _ _ C). intros n. rewrite nth_error_map. destruct (nth_error (ws_cons s) n) as [c|]; cbn; [|exact Logic.I].
  destruct (is_target p x l c); [apply still_do; [exact Logic.I|reflexivity]|apply still_refl].
Qed.
Lemma n_perform fl ops skip i op s s' : SdsSpec.dreach (ws_hist s) (ws_net s) -> (forall o, In o (ws_hist s) -> In (WNet o) ops \/ noted o) -> INVC fl (ws_hist s) (ws_net s) (ws_cons s) -> INVS (ws_hist s) (ws_net s) (ws_insts s) ->
  (forall j, skips skip j = false -> forall d, fl j d = failed d) -> ws_perform skip i op s = Some s' ->
  ws_hist s' = ws_hist s /\ ws_net s' = ws_net s /\ INVC fl (ws_hist s') (ws_net s') (ws_cons s') /\ INVS (ws_hist s') (ws_net s') (ws_insts s').
Proof.
  intros A B C D FL E. unfold ws_perform in E. destruct (nth_error (ws_insts s) i) as [t|] eqn:NT; [|discriminate]. destruct (m_step op (wi_state t)) as [[v ev]|] eqn:M; [|discriminate]. injection E as <-. cbn [ws_hist ws_net ws_cons ws_insts].
  split; [reflexivity|]. split; [reflexivity|]. split.
  - apply (c_still fl fl _ _ _ _ C). intros n. rewrite nth_mapi. destruct (nth_error (ws_cons s) n) as [c|]; cbn; [|exact Logic.I]. destruct (on_srv i c && negb (skips skip n))%bool eqn:SK; [|apply still_refl].
    rewrite andb_true_iff, negb_true_iff in SK. apply still_do; [exact Logic.I|apply FL, SK].
  - apply (s_wi _ _ _ _ D). intros j. rewrite nth_upd. destruct (nth_error (ws_insts s) j) as [u|] eqn:NU; [|destruct (Nat.eqb j i); exact Logic.I]. destruct (Nat.eqb_spec j i) as [J|J]; [|repeat split]. subst j. rewrite NT in NU. injection NU as <-. repeat split.
Qed.
Lemma co_do_ident o c : ident c (co_do o c) /\ co_open (co_do o c) = co_open c.
Proof. unfold co_do, co_step. destruct (x_step o (co_rpc c)) as [[r e]|]; repeat split. Qed.
Lemma plain_other o : match o with DAt _ (PGo _) | DAt _ (PFail _ _) => False | _ => True end -> plain o.
Proof. intros H. split; [intros p x k X|intros p x X]; unfold is_fail in *; subst o; exact H. Qed.
(** What became of session [n]. *)
Lemma n_note ops n c c' s s' : SdsSpec.dreach (ws_hist s) (ws_net s) -> (forall o, In o (ws_hist s) -> In (WNet o) ops \/ noted o) -> INVS (ws_hist s) (ws_net s) (ws_insts s) ->
  INVC (fun j d => if Nat.eqb j n then failed c else failed d) (ws_hist s) (ws_net s) (ws_cons s) -> nth_error (ws_cons s) n = Some c' -> (failed c = true -> failed c' = true) -> ws_note c c' s = Some s' -> INVN ops s'.
Proof.
  intros A B D C NC MO E. unfold ws_note in E. destruct (co_open c' && failed c' && negb (failed c))%bool eqn:T.
  - rewrite !andb_true_iff, negb_true_iff in T. destruct T as [[O F1] F0]. destruct (disc_shape _ _ _ E) as (n1 & N1 & ->). rewrite F0 in C. destruct (c_fail _ _ _ _ _ _ NC O F1 C A N1) as [OP C'].
    constructor; cbn [ws_hist ws_net ws_cons ws_insts].
    + apply SdsProofs.reach_snoc. eauto.
    + intros o0 I1. apply in_app_iff in I1. destruct I1 as [I1|[<-|[]]]; auto. right. unfold noted. eauto.
    + rewrite OP, app_nil_r. exact C'.
    + apply s_same with (n := ws_net s); auto. intros p x. apply (fsrv_keep _ _ _ _ _ (SdsProofs.reach_good _ _ A) N1). reflexivity.
  - injection E as <-. constructor; auto. apply (c_still _ flag _ _ _ _ C). intros m. destruct (nth_error (ws_cons s) m) as [d|] eqn:ND; [|exact Logic.I]. repeat (split; [reflexivity|]). intros O. unfold flag.
    destruct (Nat.eqb_spec m n) as [J|J]; [|reflexivity]. subst m. rewrite NC in ND. injection ND as <-. rewrite O in T. cbn [andb] in T. destruct (failed c) eqn:F0; [apply MO; reflexivity|]. cbn [negb] in T. rewrite andb_true_r in T. exact T.
Qed.
Lemma n_wcon ops n o c c' e s s' : INVN ops s -> nth_error (ws_cons s) n = Some c -> co_step o c = Some (c', e) ->
  match e, co_srv c with
  | XTake _ bs :: _, Some i => match ws_perform (Some n) i (MRequest bs) (with_cons (upd n c' (ws_cons s)) s) with Some s2 => ws_note c c' s2 | None => None end
  | _, _ => ws_note c c' (with_cons (upd n c' (ws_cons s)) s)
  end = Some s' -> INVN ops s'.
Proof.
  intros [A B C D] NC ST E. set (s1 := with_cons (upd n c' (ws_cons s)) s) in *. set (fl := fun j d => if Nat.eqb j n then failed c else failed d).
  unfold co_step in ST. destruct (x_step o (co_rpc c)) as [[r e0]|] eqn:X; [|discriminate]. injection ST as EC EE. subst e0.
  assert (MO : failed c = true -> failed c' = true) by (rewrite !failed_pfail; subst c'; cbn [co_rpc co_set]; apply (x_fails _ _ _ _ X)).
  assert (N1 : nth_error (ws_cons s1) n = Some c') by (cbn [ws_cons s1 with_cons]; rewrite nth_upd, Nat.eqb_refl, NC; reflexivity).
  assert (C1 : INVC fl (ws_hist s1) (ws_net s1) (ws_cons s1)).
  { apply (c_still flag fl _ _ _ _ C). intros m. cbn [ws_cons s1 with_cons]. rewrite nth_upd. destruct (nth_error (ws_cons s) m) as [d|] eqn:ND; [|destruct (Nat.eqb m n); exact Logic.I].
    destruct (Nat.eqb_spec m n) as [J|J]; [subst m; rewrite NC in ND; injection ND as <-; subst c'|]; repeat (split; [reflexivity|]); intros _; unfold fl, flag; [rewrite Nat.eqb_refl; reflexivity|]. apply Nat.eqb_neq in J. rewrite J. reflexivity. }
  assert (FIN : ws_note c c' s1 = Some s' -> INVN ops s') by (intros N; apply (n_note ops n c c' s1 s'); auto).
  destruct e as [|[] e]; try (apply FIN, E); destruct (co_srv c) as [i|]; try (apply FIN, E).
  destruct (ws_perform (Some n) i (MRequest bs) s1) as [s2|] eqn:P; [|discriminate].
  destruct (n_perform fl ops (Some n) i (MRequest bs) s1 s2 A B C1 D) as (H1 & H2 & C2 & D2); [intros j SK d; cbn in SK; unfold fl; rewrite Nat.eqb_sym, SK; reflexivity|exact P|].
  apply (n_note ops n c c' s2 s'); [rewrite H1, H2; exact A|rewrite H1; exact B|exact D2|exact C2| |exact MO|exact E].
  unfold ws_perform in P; destruct (nth_error (ws_insts s1) i) as [t|]; [|discriminate]; destruct (m_step _ _) as [[v ev]|]; [|discriminate]; injection P as <-; cbn [ws_cons s1 with_cons] in N1 |- *; rewrite nth_mapi, N1; cbn [option_map skips Nat.add]; rewrite Nat.eqb_refl, andb_false_r; reflexivity.
Qed.
Lemma n_step ops o s s' : INVN ops s -> ws_step o s = Some s' -> INVN (ops ++ [o]) s'.
Proof.
  intros I0 E. assert (I1 : INVN (ops ++ [o]) s) by (apply n_more, I0). assert (IO : In o (ops ++ [o])) by (apply in_app_iff; right; left; reflexivity). revert I1 IO. generalize (ops ++ [o]). clear I0 ops. intros ops I1 IO.
  pose proof (SdsProofs.reach_good _ _ (w_reach _ _ I1)) as G.
  assert (KEEP : forall d, match d with DAt _ (PServe _ _ _ _) | DAt _ (PEnd _) => False | _ => True end -> forall n', dn_step d (ws_net s) = Some n' -> forall p x, fsrv n' p x = fsrv (ws_net s) p x).
  { intros d H n' N p x. apply (fsrv_keep _ _ _ _ _ G N). destruct d as [|p0 []]; try reflexivity; destruct H. }
  destruct o as [d|p x m req|n o|n i|i op|i bs]; cbn [ws_step] in E.
  - assert (DISC : match d with DAt _ (PServe _ _ _ _) | DAt _ (PEnd _) | DAt _ (PGo _) | DAt _ (PFail _ _) => False | _ => True end -> ws_disc d s = Some s' -> INVN ops s').
    { intros H X. apply (n_disc _ _ _ _ I1 X (or_introl IO)); [apply plain_other; destruct d as [|p0 []]; auto|apply KEEP; destruct d as [|p0 []]; auto]. }
    destruct d as [p c|p [x name id r|x ms|x|x name|x h|x| | |k now|x|x k]]; try (apply (DISC Logic.I E)); try discriminate.
    + assert (OLD : fsrv (ws_net s) p x <> None \/ aget p (dn_procs (ws_net s)) = None -> ws_disc (DAt p (PServe x name id r)) s = Some s' -> INVN ops s').
      { intros H X. apply (n_disc _ _ _ _ I1 X (or_introl IO)); [apply plain_other; exact Logic.I|]. intros n' N p' x'. destruct (Nat.eqb p' p && Nat.eqb x' x)%bool eqn:PX; [|apply (fsrv_keep _ _ _ _ _ G N); exact PX].
        rewrite andb_true_iff, !Nat.eqb_eq in PX. destruct PX. subst p' x'. rewrite (fsrv_serve _ _ _ _ _ _ _ N). destruct H as [H|H].
        - destruct (aget p (dn_procs (ws_net s))) as [q|] eqn:Q; [destruct (fsrv (ws_net s) p x); [reflexivity|congruence]|]. unfold fsrv in H. rewrite Q in H. congruence.
        - unfold fsrv. rewrite H. reflexivity. }
      destruct (aget p (dn_procs (ws_net s))) as [q|] eqn:Q; [|apply OLD; auto]. destruct (aget x (px_srv q)) eqn:X; [apply OLD; [left; unfold fsrv; rewrite Q, X; discriminate|exact E]|].
      destruct (bindable _ _ _) eqn:BI; [|discriminate]. destruct (ws_disc _ s) as [s1|] eqn:DS; [|discriminate]. injection E as <-. destruct (disc_shape _ _ _ DS) as (n & N & ->). destruct I1 as [A B C D].
      constructor; cbn [ws_hist ws_net ws_cons ws_insts ws_serve with_insts].
      * apply SdsProofs.reach_snoc. eauto.
      * intros o0 I2. apply in_app_iff in I2. destruct I2 as [I2|[<-|[]]]; auto.
      * apply c_disc; auto; [intros p0 x0 k0 Y; discriminate|intros p0 x0 Y; discriminate].
      * apply s_serve with (n := ws_net s); auto.
    + destruct (ws_disc _ s) as [s1|] eqn:DS; [|discriminate]. injection E as <-. destruct (disc_shape _ _ _ DS) as (n & N & ->). destruct I1 as [A B C D].
      constructor; cbn [ws_hist ws_net ws_cons ws_insts ws_end].
      * apply SdsProofs.reach_snoc. eauto.
      * intros o0 I2. apply in_app_iff in I2. destruct I2 as [I2|[<-|[]]]; auto.
      * apply (c_still flag flag _ _ (ws_cons s ++ opened (DAt p (PEnd x)) (ws_net s) n)); [apply c_disc; auto; [intros p0 x0 k0 Y; discriminate|intros p0 x0 Y; discriminate]|].
        intros m. rewrite nth_error_map. destruct (nth_error _ m) as [c|]; cbn [option_map]; [|exact Logic.I]. destruct (srv_ends p x (ws_insts s) c); [apply still_do; [exact Logic.I|reflexivity]|apply still_refl].
      * apply s_end with (n := ws_net s); auto.
    + destruct (ws_disc _ s) as [s1|] eqn:DS; [|discriminate]. injection E as <-. destruct (disc_shape _ _ _ DS) as (n & N & ->). destruct I1 as [A B C D]. destruct (c_go _ _ _ _ _ _ C A N) as [OP C'].
      constructor; cbn [ws_hist ws_net ws_cons ws_insts ws_go with_cons].
      * apply SdsProofs.reach_snoc. eauto.
      * intros o0 I2. apply in_app_iff in I2. destruct I2 as [I2|[<-|[]]]; auto.
      * rewrite OP, app_nil_r. exact C'.
      * apply s_same with (n := ws_net s); auto. exact (KEEP (DAt p (PGo x)) Logic.I n N).
  - destruct (the_client (ws_net s) p x) as [[q d]|]; [|injection E as <-; exact I1]. destruct (_ || _)%bool; [injection E as <-; exact I1|]. destruct (ws_disc _ s) as [s1|] eqn:DS; [|discriminate].
    assert (I2 : INVN ops s1). { apply (n_disc _ _ _ _ I1 DS); [right; unfold noted; eauto|apply plain_other; exact Logic.I|apply KEEP; exact Logic.I]. }
    destruct (the_client (ws_net s1) p x) as [[q1 d1]|]; injection E as <-; [apply n_ask, I2|exact I2].
  - destruct (nth_error (ws_cons s) n) as [c|] eqn:NC; [|discriminate]. destruct (legal o c && modern c)%bool; [|discriminate]. destruct (co_step o c) as [[c' e]|] eqn:CS; [|discriminate]. apply (n_wcon ops n o c c' e s s' I1 NC CS E).
  - destruct (nth_error (ws_cons s) n) as [c|] eqn:NC; [|discriminate]. destruct (nth_error (ws_insts s) i) as [t|] eqn:NT; [|discriminate]. destruct (co_srv c); [discriminate|]. destruct (reaches c t && modern c)%bool eqn:RE; [|discriminate].
    destruct (co_step _ _) as [[c' e]|] eqn:CS; [|discriminate]. injection E as <-. destruct I1 as [A B C D]. constructor; cbn [ws_hist ws_net ws_cons ws_insts with_cons]; auto.
    apply (c_still flag flag _ _ _ _ C). intros m. rewrite nth_upd. destruct (nth_error (ws_cons s) m) as [d|] eqn:ND; [|destruct (Nat.eqb m n); exact Logic.I]. destruct (Nat.eqb_spec m n) as [J|J]; [|apply still_refl]. subst m. rewrite NC in ND. injection ND as <-.
    unfold co_step in CS. destruct (x_step _ _) as [[r e0]|] eqn:X; [|discriminate]. injection CS as <- _. repeat (split; [reflexivity|]). intros _. unfold flag. rewrite !failed_pfail. cbn [co_rpc co_set]. rewrite andb_true_iff in RE. destruct RE as [RE _].
    unfold reaches in RE. destruct (c_phase (x_cli (co_rpc c))) eqn:P; try discriminate. cbn [x_step with_data client c_step] in X. unfold client in X. cbn [c_step co_bind co_rpc set_server x_cli] in X. rewrite P in X. cbn in X.
    destruct (c_sock (x_cli (co_rpc c))); cbn in X; injection X as <- _; unfold pfail; cbn; rewrite P; reflexivity.
  - assert (PERF : forall op s', ws_perform None i op s = Some s' -> INVN ops s').
    { intros op0 s0 P. destruct I1 as [A B C D]. destruct (n_perform flag ops None i op0 s s0 A B C D) as (H1 & H2 & C2 & D2); [reflexivity|exact P|]. constructor; rewrite ?H1, ?H2; auto; rewrite <- ?H1, <- ?H2; auto. }
    destruct op; try discriminate; apply (PERF _ _ E).
  - destruct I1 as [A B C D]. destruct (n_perform flag ops None i (MRequest bs) s s' A B C D) as (H1 & H2 & C2 & D2); [reflexivity|exact E|]. constructor; rewrite ?H1, ?H2; auto; rewrite <- ?H1, <- ?H2; auto.
Qed.
Lemma n_all ops s : wreach ops s -> INVN ops s.
Proof.
  revert s. induction ops as [|o ops IH] using rev_ind; intros s R.
  - injection R as <-. constructor; cbn.
    + reflexivity.
    + intros o [].
    + constructor; [intros p x k nm z X; discriminate|intros [|i] c X; discriminate|intros [|i] j c d X; discriminate|intros [|i] c X; discriminate].
    + constructor; [intros p x c a X; discriminate|intros [|i] c X; discriminate|intros [|i] j c d X; discriminate| |intros [|i] j c d X; discriminate].
      intros ops1 ops2 s1 p x c a H R1 F. symmetry in H. apply app_eq_nil in H. destruct H as [-> ->]. injection R1 as <-. discriminate.
  - apply wreach_snoc in R. destruct R as (s1 & R & E). apply (n_step _ _ _ _ (IH _ R) E).
Qed.
