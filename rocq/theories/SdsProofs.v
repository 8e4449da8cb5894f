From Coq Require Import Bool.
From Verif Require Import Base Sample ExpMapModel ExpMapSpec ExpMapProofs RegModel PbModel PbSpec SerModel SerSpec SerProofs UdpModel UdpSpec UdpProofs SdsModel SdsSpec.
From Verif Require MonModel MonProofs NetModel NetProofs.

(** ** The table of known services *)
Notation rmap := (emap text dattr).
Lemma contents_aget (r : rmap) k a : NoDup (keys (e_map r)) -> (In (k, a) (em_contents r) <-> exists e, aget k (e_map r) = Some e /\ m_val e = a).
Proof.
  intros ND. unfold em_contents. rewrite in_map_iff. split.
  - intros ([k' e] & E & I1). cbn in E. injection E as <- <-. exists e. split; [apply in_aget; assumption|reflexivity].
  - intros (e & G & <-). exists (k, e). split; [reflexivity|]. apply aget_in, G.
Qed.
Lemma expire_sub now (r : rmap) k e : aget k (e_map (fst (em_erase_expired now r))) = Some e -> aget k (e_map r) = Some e.
Proof.
  unfold em_erase_expired. pose proof (evict_out (now - e_timeout r) (e_list r) (e_map r) []) as E.
  destruct (em_evict _ _ _ _) as [[l' m'] out']. destruct E as (pre & _ & _ & _ & _ & G & _). cbn. rewrite G. destruct (existsb _ _); [discriminate|auto].
Qed.
Lemma expire_timeout now (r : rmap) : e_timeout (fst (em_erase_expired now r)) = e_timeout r.
Proof. unfold em_erase_expired. destruct (em_evict _ _ _ _) as [[l' m'] out']. reflexivity. Qed.
Lemma index_timeout d now k f (r r' : rmap) : em_index d now k f r = Some r' -> e_timeout r' = e_timeout r.
Proof.
  unfold em_index, em_update_timestamp. destruct (aget k (e_map r)) eqn:G; [|intros E; injection E as <-; reflexivity].
  rewrite ?G. destruct (find_cell _ _); [|discriminate]. intros E. injection E as <-. reflexivity.
Qed.
Lemma index_vals d now k a (r r' : rmap) : em_index d now k (fun _ => a) r = Some r' ->
  forall k' e', aget k' (e_map r') = Some e' -> (k' = k /\ m_val e' = a) \/ (k' <> k /\ aget k' (e_map r) = Some e').
Proof.
  unfold em_index, em_update_timestamp, em_insert. intros E k' e' G'. destruct (aget k (e_map r)) as [e|] eqn:G.
  - rewrite ?G in E. destruct (find_cell _ _); [|discriminate]. injection E as <-. cbn in G'. rewrite aget_aset in G'.
    destruct (eqb k' k) eqn:K; [left; apply eqb_true in K; injection G' as <-; auto|right; split; [apply eqb_false in K; exact K|exact G']].
  - injection E as <-. cbn in G'. rewrite ?G in G'. rewrite aget_aset in G'. destruct (eqb k' k) eqn:K.
    + left. apply eqb_true in K. injection G' as <-. auto.
    + right. split; [apply eqb_false in K; exact K|]. rewrite aget_snoc in G' by exact G. rewrite K in G'. exact G'.
Qed.
Lemma put_inv0 now a (r : rmap) : Inv0 r -> exists r1, em_index attr0 now (ca_key a) (fun _ => a) r = Some r1 /\ Inv0 (fst (em_erase_expired now r1)).
Proof. intros G. destruct (inv0_index attr0 now (ca_key a) (fun _ => a) r G) as (r1 & E & G1). exists r1. split; [exact E|]. apply inv0_expire, G1. Qed.

Lemma abs_contents t (r : rmap) k a : Inv t r -> (In (k, a) (em_contents r) <-> exists tk, a_list (abs r) k = Some (a, tk)).
Proof.
  intros G. rewrite contents_aget by apply (i_keys _ (i_0 _ _ G)). split.
  - intros (e & A & <-). destruct (abs_in t r k e G A) as (c & _ & _ & _ & _ & E). exists (c_ts c). exact E.
  - intros (tk & E). unfold abs in E. cbn in E. destruct (aget k (e_map r)) as [e|]; [|discriminate]. exists e. split; [reflexivity|].
    destruct (find_cell _ _); [|discriminate]. injection E as -> _. reflexivity.
Qed.
Lemma put_spec t now a (r r1 : rmap) : Inv t r -> (t <= now)%Z -> em_index attr0 now (ca_key a) (fun _ => a) r = Some r1 -> (0 <= e_timeout r)%Z ->
  let r' := fst (em_erase_expired now r1) in
  Inv now r' /\ forall k, a_list (abs r') k =
    if eqb k (ca_key a) then Some (a, now)
    else match a_list (abs r) k with Some (v, tk) => if (tk <? now - e_timeout r)%Z then None else Some (v, tk) | None => None end.
Proof.
  intros G L E T. destruct (index_spec attr0 t now (ca_key a) (fun _ => a) r G L) as (r1' & E' & G1 & A1 & A2). rewrite E in E'. injection E' as <-.
  pose proof (expire_spec attr0 now now r1 G1 ltac:(lia)) as X. pose proof (index_timeout _ _ _ _ _ _ E) as TT.
  destruct (em_erase_expired now r1) as [r' out] eqn:EE. cbn [fst]. destruct X as (G2 & (B1 & B2) & _). split; [exact G2|].
  intros k. rewrite B1. cbn [spec_step a_list]. rewrite A1. cbn [spec_step a_list a_timeout]. unfold upd.
  assert (TA : a_timeout (abs r1) = e_timeout r) by (rewrite <- TT; reflexivity). rewrite TA.
  destruct (eqb k (ca_key a)); [|reflexivity]. destruct (Z.ltb_spec now (now - e_timeout r)); [lia|reflexivity].
Qed.

(** ** Good processes *)
Record cgood (d : dcli) : Prop := { cg_conn : NoDup (keys (cx_conn d)); cg_ses : NoDup (keys (cx_ses d)) }.
Record pgood (q : dproc) : Prop := {
  pg_rx : px_rx q = Listening;
  pg_reg : Inv0 (px_reg q);
  pg_time : e_timeout (px_reg q) = forget_after;
  pg_srv : NoDup (keys (px_srv q));
  pg_cli : NoDup (keys (px_cli q));
  pg_each : forall x d, In (x, d) (px_cli q) -> cgood d }.
Definition ngood (s : dnet) : Prop := forall p q, aget p (dn_procs s) = Some q -> pgood q.

Lemma aget_map2 {A} (f : nat -> A -> A) x (l : list (nat * A)) :
  aget x (map (fun xe => (fst xe, f (fst xe) (snd xe))) l) = match aget x l with Some e => Some (f x e) | None => None end.
Proof.
  induction l as [|[y e] l IH]; cbn; [reflexivity|]. destruct (eqb x y) eqn:E; [apply eqb_true in E; subst; reflexivity|exact IH].
Qed.
Lemma aget_mapv {A} (f : A -> A) x (l : list (nat * A)) :
  aget x (map (fun xe => (fst xe, f (snd xe))) l) = match aget x l with Some e => Some (f e) | None => None end.
Proof. exact (aget_map2 (fun _ => f) x l). Qed.
Lemma keys_mapv {A} (f : A -> A) (l : list (nat * A)) : keys (map (fun xe => (fst xe, f (snd xe))) l) = keys l.
Proof. unfold keys. rewrite map_map. reflexivity. Qed.
Lemma in_mapv {A} (f : A -> A) x d (l : list (nat * A)) : In (x, d) (map (fun xe => (fst xe, f (snd xe))) l) -> exists d0, In (x, d0) l /\ d = f d0.
Proof. intros I1. apply in_map_iff in I1. destruct I1 as ([y e] & E & I1). cbn in E. injection E as <- <-. eauto. Qed.
Lemma in_aset {K B} `{EqDec K} (x : K) (v : B) l y w : NoDup (keys l) -> In (y, w) (aset x v l) -> (y = x /\ w = v) \/ (y <> x /\ In (y, w) l).
Proof.
  intros ND I1. apply in_aget in I1; [|apply nodup_aset, ND]. rewrite aget_aset in I1. destruct (eqb y x) eqn:E.
  - apply eqb_true in E. injection I1 as <-. auto.
  - right. apply eqb_false in E. split; [exact E|]. apply aget_in, I1.
Qed.
Lemma in_adel {K B} `{EqDec K} (x : K) (l : list (K * B)) y w : In (y, w) (adel x l) <-> y <> x /\ In (y, w) l.
Proof.
  unfold adel. rewrite filter_In. cbn. split; intros [A1 A2]; split; auto.
  - destruct (eqb y x) eqn:E; [|apply eqb_false in E; exact E]. rewrite eqb_sym in E. rewrite ?E in A2. try (rewrite eqb_sym in A2; rewrite ?E in A2). discriminate.
  - rewrite ?(neq_eqb y x) by exact A1. rewrite ?(neq_eqb x y) by congruence. reflexivity.
Qed.

(** *** Clients *)
Lemma hear_good k a d : cgood d -> cgood (cx_hear k a d).
Proof. intros [A B]. unfold cx_hear. destruct (aget k (cx_conn d)); constructor; cbn; try assumption. apply nodup_aset, A. Qed.
Definition open_all (l : list dattr) (ses : list (text * dses)) : list (text * dses) :=
  fold_left (fun l a => match aget (ca_key a) l with Some _ => l | None => aset (ca_key a) (dial a) l end) l ses.
Lemma open_nodup l : forall ses, NoDup (keys ses) -> NoDup (keys (open_all l ses)).
Proof. unfold open_all. induction l as [|a l IH]; intros ses ND; cbn; [exact ND|]. apply IH. destruct (aget _ ses); [exact ND|apply nodup_aset, ND]. Qed.
Lemma open_keeps l : forall ses k z, aget k ses = Some z -> aget k (open_all l ses) = Some z.
Proof.
  unfold open_all. induction l as [|a l IH]; intros ses k z G; cbn; [exact G|]. apply IH. destruct (aget (ca_key a) ses) eqn:E; [exact G|].
  rewrite aget_aset. destruct (eqb k (ca_key a)) eqn:K; [apply eqb_true in K; congruence|exact G].
Qed.
Lemma open_has l : forall ses a, In a l -> exists z, aget (ca_key a) (open_all l ses) = Some z.
Proof.
  unfold open_all. induction l as [|b l IH]; intros ses a I1; [contradiction|]. cbn. destruct I1 as [->|I1]; [|apply IH, I1].
  destruct (aget (ca_key a) ses) as [z|] eqn:E; [exists z; apply open_keeps, E|]. exists (dial a). apply open_keeps. apply aget_aset_same.
Qed.
Lemma open_from l : forall ses k z, aget k (open_all l ses) = Some z -> aget k ses = Some z \/ (aget k ses = None /\ exists a, In a l /\ k = ca_key a /\ z = dial a).
Proof.
  unfold open_all. induction l as [|b l IH]; intros ses k z G; cbn in G; [left; exact G|]. destruct (IH _ _ _ G) as [E|(E & a & A1 & A2)].
  - destruct (aget (ca_key b) ses) eqn:B; [left; exact E|]. rewrite aget_aset in E. destruct (eqb k (ca_key b)) eqn:K; [|left; exact E].
    apply eqb_true in K. injection E as <-. right. rewrite K. split; [exact B|]. exists b. split; [left; reflexivity|auto].
  - right. split; [|exists a; split; [right; exact A1|exact A2]]. destruct (aget (ca_key b) ses); [exact E|]. rewrite aget_aset in E.
    destruct (eqb k (ca_key b)); [discriminate|exact E].
Qed.
Lemma refresh_ses r d : cx_ses (cx_refresh r d) = open_all (named (cx_name d) r) (cx_ses d).
Proof. reflexivity. Qed.
Definition drop_all (ses : list (text * dses)) (conn : list (text * dattr)) : list (text * dattr) :=
  fold_left (fun l ks => if ss_failed (snd ks) then adel (fst ks) l else l) ses conn.
Lemma drop_nodup ses : forall conn, NoDup (keys conn) -> NoDup (keys (drop_all ses conn)).
Proof. unfold drop_all. induction ses as [|[k z] ses IH]; intros conn ND; cbn; [exact ND|]. apply IH. destruct (ss_failed z); [apply nodup_adel, ND|exact ND]. Qed.
Lemma drop_in ses : forall conn k a, In (k, a) (drop_all ses conn) <-> In (k, a) conn /\ ~ exists z, In (k, z) ses /\ ss_failed z = true.
Proof.
  unfold drop_all. induction ses as [|[k1 z1] ses IH]; intros conn k a; cbn.
  - split; [intros I1; split; [exact I1|]; intros (z & [] & _)|intros [I1 _]; exact I1].
  - rewrite IH. destruct (ss_failed z1) eqn:F.
    + rewrite in_adel. split.
      * intros [[N I1] NE]. split; [exact I1|]. intros (z & [E|I2] & Z); [injection E as <- <-; contradiction|]. apply NE. eauto.
      * intros [I1 NE]. split; [split; [|exact I1]|intros (z & I2 & Z); apply NE; eauto]. intros ->. apply NE. eauto.
    + split; intros [I1 NE]; (split; [exact I1|]); intros (z & I2 & Z); apply NE; [destruct I2 as [E|I2]; [injection E as <- <-; congruence|eauto]|eauto].
Qed.
Lemma check_good r d : cgood d -> cgood (cx_check (cx_refresh r d)).
Proof. intros [A B]. constructor; cbn; [apply drop_nodup, A|apply open_nodup, B]. Qed.

(** ** Steps are defined *)
Definition sees (sent : list sample) (q : dproc) (o : pop) (now : Z) (m : sample) : Prop :=
  exists k m0, o = PHear k now /\ nth_error sent k = Some m0 /\ de_sample (ser_sample m0) = Ok m /\ registers m /\ ap_accept (px_applier q) m = true.
Lemma datagram_is now m0 q : pgood q ->
  px_datagram now (datagram NetModel.reg_sample (ser_sample m0)) q =
  match de_sample (ser_sample m0) with Ok m => if ap_accept (px_applier q) m then px_gates now m q else Some q | _ => Some q end.
Proof.
  intros PG. unfold px_datagram, rx_step. rewrite (pg_rx _ PG), NetProofs.reg_receive. cbv iota beta.
  assert (U : DProc (px_cfg q) Listening (px_srv q) (px_cli q) (px_reg q) (px_applied q) = q) by (rewrite <- (pg_rx _ PG); destruct q; reflexivity).
  rewrite U. unfold px_sample. destruct (de_sample (ser_sample m0)) as [m| |] eqn:D; [|reflexivity|exfalso; exact (deserialize_safe d_sample _ _ _ D)].
  unfold ap_apply. destruct (ap_accept _ _); reflexivity.
Qed.
Lemma apply_ok now m q : pgood q -> exists q', px_apply now m q = Some q' /\ pgood q'.
Proof.
  intros PG. unfold px_apply. destruct (put_inv0 now (attr_of m) (px_reg q) (pg_reg _ PG)) as (r1 & E & G). rewrite E. eexists. split; [reflexivity|].
  constructor; cbn.
  - apply (pg_rx _ PG).
  - exact G.
  - rewrite expire_timeout, (index_timeout _ _ _ _ _ _ E). apply (pg_time _ PG).
  - apply (pg_srv _ PG).
  - rewrite (keys_mapv (fun d => if eqb (cx_name d) (sv_sname (sm_service m)) then cx_hear (ca_key (attr_of m)) (attr_of m) d else d)). apply (pg_cli _ PG).
  - intros x d I1. apply (in_mapv (fun d => if eqb (cx_name d) (sv_sname (sm_service m)) then cx_hear (ca_key (attr_of m)) (attr_of m) d else d)) in I1.
    destruct I1 as (d0 & I1 & ->). pose proof (pg_each _ PG _ _ I1) as C. destruct (eqb _ _); [apply hear_good, C|exact C].
Qed.
(** A datagram arrives: it is a registration the process takes, or nothing happens. *)
Lemma hear_split sent q k now : pgood q ->
  (exists m q', sees sent q (PHear k now) now m /\ px_apply now m q = Some q' /\ px_step sent (PHear k now) q = Some (q', []) /\ pgood q') \/
  ((forall m t, ~ sees sent q (PHear k now) t m) /\ px_step sent (PHear k now) q = Some (q, [])).
Proof.
  intros PG. cbn [px_step]. destruct (nth_error sent k) as [m0|] eqn:N.
  2:{ right. split; [|reflexivity]. intros m t (k' & m1 & E & N' & _). injection E as <- <-. congruence. }
  rewrite datagram_is by exact PG. destruct (de_sample (ser_sample m0)) as [m| |] eqn:D.
  2,3: right; split; [|reflexivity]; intros m t (k' & m1 & E & N' & D' & _); injection E as <- <-; rewrite N in N'; injection N' as <-; congruence.
  destruct (ap_accept (px_applier q) m) eqn:A.
  2:{ right. split; [|reflexivity]. intros m1 t (k' & m2 & E & N' & D' & _ & A'). injection E as <- <-. rewrite N in N'. injection N' as <-. congruence. }
  unfold px_gates. destruct (sm_cmd m) eqn:CM;
    try (right; split; [|reflexivity]; intros m1 t (k' & m2 & E & N' & D' & R & A'); injection E as <- <-; rewrite N in N'; injection N' as <-;
         rewrite D in D'; injection D' as <-; unfold registers in R; congruence).
  left. destruct (apply_ok now m q PG) as (q' & E & G). exists m, q'. split; [exists k, m0; unfold registers; auto|]. split; [exact E|]. rewrite E. auto.
Qed.
Lemma on_cli_good x f q : pgood q -> (forall d, cgood d -> cgood (f d)) -> pgood (on_cli x f q).
Proof.
  intros PG F. unfold on_cli. destruct (aget x (px_cli q)) as [d|] eqn:G; [|exact PG]. constructor; cbn; try apply PG.
  - apply nodup_aset, PG.
  - intros y w I1. apply in_aset in I1; [|apply PG]. destruct I1 as [[-> ->]|[_ I1]]; [|apply (pg_each _ PG _ _ I1)]. apply F. apply (pg_each _ PG x). apply aget_in, G.
Qed.
Lemma step_ok sent o q : pgood q -> exists q' out, px_step sent o q = Some (q', out) /\ pgood q'.
Proof.
  intros PG. destruct o as [x name id r|x ms|x|x name|x h|x| | |k now|x|x k].
  9:{ destruct (hear_split sent q k now PG) as [(m & q' & _ & _ & E & G)|[_ E]]; eauto. }
  all: cbn [px_step].
  - destruct (aget x (px_srv q)); do 2 eexists; (split; [reflexivity|]); [exact PG|]. constructor; cbn; try apply PG. apply nodup_aset, PG.
  - destruct (aget x (px_srv q)); do 2 eexists; (split; [reflexivity|]); [|exact PG]. constructor; cbn; try apply PG. apply nodup_aset, PG.
  - destruct (aget x (px_srv q)); do 2 eexists; (split; [reflexivity|]); [|exact PG]. constructor; cbn; try apply PG. apply nodup_adel, PG.
  - destruct (aget x (px_cli q)); do 2 eexists; (split; [reflexivity|]); [exact PG|]. constructor; cbn; try apply PG.
    + apply nodup_aset, PG.
    + intros y w I1. apply in_aset in I1; [|apply PG]. destruct I1 as [[-> ->]|[_ I1]]; [constructor; constructor|apply (pg_each _ PG _ _ I1)].
  - do 2 eexists. split; [reflexivity|]. apply on_cli_good; [exact PG|]. intros d [A B]. constructor; assumption.
  - do 2 eexists. split; [reflexivity|]. constructor; cbn; try apply PG; [apply nodup_adel, PG|]. intros y w I1. apply in_adel in I1. apply (pg_each _ PG y w), I1.
  - do 2 eexists. split; [reflexivity|]. constructor; cbn; try apply PG.
    + rewrite (keys_mapv (fun d => cx_check (cx_refresh (px_reg q) d))). apply PG.
    + intros y w I1. apply (in_mapv (fun d => cx_check (cx_refresh (px_reg q) d))) in I1. destruct I1 as (d & I1 & ->). apply check_good, (pg_each _ PG _ _ I1).
  - do 2 eexists. split; [reflexivity|]. constructor; cbn; apply PG.
  - do 2 eexists. split; [reflexivity|]. apply on_cli_good; [exact PG|]. intros d [A B]. constructor; [exact A|apply open_nodup, B].
  - do 2 eexists. split; [reflexivity|]. apply on_cli_good; [exact PG|]. intros d [A B]. constructor; cbn; [exact A|]. destruct (aget k (cx_ses d)); [apply nodup_aset, B|exact B].
Qed.
Lemma new_good c : pgood (px_new c).
Proof. constructor; [reflexivity|apply inv0_new|reflexivity|constructor|constructor|intros x d []]. Qed.
Lemma dn_ok o s : ngood s -> exists s', dn_step o s = Some s' /\ ngood s'.
Proof.
  intros G. destruct o as [p c|p o]; cbn [dn_step].
  - destruct (aget p (dn_procs s)) eqn:A; eexists; (split; [reflexivity|]); [exact G|]. intros p' q. cbn. rewrite aget_aset. destruct (eqb p' p); [|apply G].
    intros E. injection E as <-. apply new_good.
  - destruct (aget p (dn_procs s)) as [q|] eqn:A; [|eauto]. destruct (step_ok (dn_sent s) o q (G p q A)) as (q' & out & E & G'). rewrite E. eexists. split; [reflexivity|].
    intros p' q1. cbn. rewrite aget_aset. destruct (eqb p' p); [|apply G]. intros E1. injection E1 as <-. exact G'.
Qed.
Lemma run_app l1 l2 s : dn_run (l1 ++ l2) s = match dn_run l1 s with Some s1 => dn_run l2 s1 | None => None end.
Proof. revert s. induction l1 as [|o l1 IH]; intros s; cbn; [reflexivity|]. destruct (dn_step o s); auto. Qed.
Lemma run_ok l : forall s, ngood s -> exists s', dn_run l s = Some s' /\ ngood s'.
Proof. induction l as [|o l IH]; intros s G; cbn; [eauto|]. destruct (dn_ok o s G) as (s1 & E & G1). rewrite E. auto. Qed.
Lemma net0_good : ngood dnet0. Proof. intros p q E. discriminate. Qed.
Lemma defined_lemma ops : exists s, dreach ops s /\ forall p q, aget p (dn_procs s) = Some q -> px_rx q = Listening.
Proof. destruct (run_ok ops dnet0 net0_good) as (s & E & G). exists s. split; [exact E|]. intros p q A. apply (G p q A). Qed.
Lemma reach_good ops s : dreach ops s -> ngood s.
Proof. intros R. destruct (run_ok ops dnet0 net0_good) as (s' & E & G). unfold dreach in R. rewrite E in R. injection R as <-. exact G. Qed.
Lemma reach_snoc ops o s : dreach (ops ++ [o]) s <-> exists s1, dreach ops s1 /\ dn_step o s1 = Some s.
Proof.
  unfold dreach. rewrite run_app. split.
  - destruct (dn_run ops dnet0) as [s1|]; [|discriminate]. cbn. intros E. exists s1. split; [reflexivity|]. destruct (dn_step o s1); congruence.
  - intros (s1 & E & E1). rewrite E. cbn. rewrite E1. reflexivity.
Qed.
Lemma reach_split ops1 ops2 s : dreach (ops1 ++ ops2) s -> exists s1, dreach ops1 s1.
Proof. intros _. destruct (defined_lemma ops1) as (s1 & R & _). eauto. Qed.
Lemma reach_fun ops s1 s2 : dreach ops s1 -> dreach ops s2 -> s1 = s2.
Proof. unfold dreach. congruence. Qed.

(** What one step of the network does to one process. *)
Lemma proc_step o s s' p q' : dn_step o s = Some s' -> aget p (dn_procs s') = Some q' ->
  (aget p (dn_procs s) = Some q' /\ (forall po, o = DAt p po -> False)) \/
  (exists c, o = DStart p c /\ (aget p (dn_procs s) = None /\ q' = px_new c \/ aget p (dn_procs s) = Some q')) \/
  (exists po q out, o = DAt p po /\ aget p (dn_procs s) = Some q /\ px_step (dn_sent s) po q = Some (q', out) /\ dn_sent s' = dn_sent s ++ out).
Proof.
  destruct o as [p0 c|p0 po]; cbn [dn_step]; intros E A.
  - destruct (aget p0 (dn_procs s)) as [q0|] eqn:A0.
    + injection E as <-. left. split; [exact A|]. intros po X. discriminate.
    + injection E as <-. cbn in A. rewrite aget_aset in A. destruct (eqb p p0) eqn:P.
      * apply eqb_true in P. subst p0. injection A as <-. right. left. exists c. auto.
      * left. split; [exact A|]. intros po X. discriminate.
  - destruct (aget p0 (dn_procs s)) as [q0|] eqn:A0.
    + destruct (px_step (dn_sent s) po q0) as [[q1 out]|] eqn:PS; [|discriminate]. injection E as <-. cbn in A. rewrite aget_aset in A. destruct (eqb p p0) eqn:P.
      * apply eqb_true in P. subst p0. injection A as <-. right. right. exists po, q0, out. auto.
      * apply eqb_false in P. left. split; [exact A|]. intros po' X. injection X as -> _. congruence.
    + injection E as <-. left. split; [exact A|]. intros po' X. injection X as -> ->. congruence.
Qed.
Lemma sent_step o s s' : dn_step o s = Some s' -> exists out, dn_sent s' = dn_sent s ++ out.
Proof.
  destruct o as [p0 c|p0 po]; cbn [dn_step]; intros E.
  - destruct (aget p0 (dn_procs s)); injection E as <-; exists []; rewrite app_nil_r; reflexivity.
  - destruct (aget p0 (dn_procs s)) as [q0|]; [|injection E as <-; exists []; rewrite app_nil_r; reflexivity].
    destruct (px_step (dn_sent s) po q0) as [[q1 out]|]; [|discriminate]. injection E as <-. exists out. reflexivity.
Qed.
Lemma sent_run l : forall s s', dn_run l s = Some s' -> exists out, dn_sent s' = dn_sent s ++ out.
Proof.
  induction l as [|o l IH]; intros s s' E; cbn in E; [injection E as <-; exists []; rewrite app_nil_r; reflexivity|].
  destruct (dn_step o s) as [s1|] eqn:E1; [|discriminate]. destruct (sent_step _ _ _ E1) as (o1 & X). destruct (IH _ _ E) as (o2 & Y).
  exists (o1 ++ o2). rewrite Y, X, app_assoc. reflexivity.
Qed.
Lemma cfg_step sent o q q' out : pgood q -> px_step sent o q = Some (q', out) -> px_cfg q' = px_cfg q.
Proof.
  intros PG. destruct o as [x name id r|x ms|x|x name|x h|x| | |k now|x|x k].
  9:{ destruct (hear_split sent q k now PG) as [(m & q1 & _ & E1 & E & _)|[_ E]]; rewrite E; intros X; injection X as <- <-; [|reflexivity].
      unfold px_apply in E1. destruct (em_index _ _ _ _ _); [|discriminate]. injection E1 as <-. reflexivity. }
  all: cbn [px_step]; unfold on_cli; try (destruct (aget x (px_srv q))); try (destruct (aget x (px_cli q))); intros X; injection X as <- <-; reflexivity.
Qed.
Lemma accept_minds q m : registers m -> (ap_accept (px_applier q) m = true <-> minds (px_cfg q) (sm_host m) (sm_pid m)).
Proof.
  intros R. unfold ap_accept, ap_member, ap_group_name, minds, near. rewrite R. cbn [ap_group px_applier ap_new ap_same_process ap_pid ap_loopback ap_network].
  cbn [is_nil]. unfold ap_same_process. cbn [ap_pid px_applier ap_new]. set (c := px_cfg q). set (h := sm_host m).
  assert (X : (is_nil h || is_nil (pc_group c))%bool = true \/ ((is_nil h || is_nil (pc_group c))%bool = false /\ h <> [])) by (destruct h; cbn; [auto|destruct (pc_group c); cbn; [auto|right; split; [reflexivity|discriminate]]]).
  destruct X as [X|[X N]]; rewrite X.
  - assert (~ (h = pc_group c /\ h <> [])) as F by (intros [-> N]; destruct (pc_group c); cbn in X; [congruence|discriminate]). cbn [px_applier].
    split; [intros H; right; auto|]. intros [[H _]|[_ H]]; [contradiction|exact H].
  - destruct (eqb h (pc_group c)) eqn:E.
    + apply eqb_true in E. cbn [negb]. rewrite orb_true_iff, negb_true_iff, Z.eqb_neq. split; [intros H; left; split; [auto|exact H]|].
      intros [[_ H]|[H _]]; [exact H|]. exfalso. auto.
    + apply eqb_false in E. cbn [negb]. split; [intros H; right; split; [intros [H1 _]; contradiction|exact H]|].
      intros [[[H _] _]|[_ H]]; [contradiction|exact H].
Qed.

(** ** One step of a process *)
Lemma apply_cases now m q q' : px_apply now m q = Some q' ->
  exists r1, em_index attr0 now (ca_key (attr_of m)) (fun _ => attr_of m) (px_reg q) = Some r1 /\ px_reg q' = fst (em_erase_expired now r1) /\
    px_srv q' = px_srv q /\ px_applied q' = px_applied q /\
    px_cli q' = map (fun xc => (fst xc, if eqb (cx_name (snd xc)) (ca_name (attr_of m)) then cx_hear (ca_key (attr_of m)) (attr_of m) (snd xc) else snd xc)) (px_cli q).
Proof. unfold px_apply. destruct (em_index _ _ _ _ _) as [r1|]; [|discriminate]. intros E. injection E as <-. exists r1. repeat split. Qed.
Lemma reg_step sent o q q' out : pgood q -> px_step sent o q = Some (q', out) ->
  ((forall now m, ~ sees sent q o now m) /\ px_reg q' = px_reg q) \/
  (exists now m r1, sees sent q o now m /\ em_index attr0 now (ca_key (attr_of m)) (fun _ => attr_of m) (px_reg q) = Some r1 /\ px_reg q' = fst (em_erase_expired now r1)).
Proof.
  intros PG. destruct o as [x name id r|x ms|x|x name|x h|x| | |k now|x|x k].
  9:{ destruct (hear_split sent q k now PG) as [(m & q1 & S1 & E1 & E & _)|[N E]]; rewrite E; intros X; injection X as <- <-; [|left; split; [intros t m; apply N|reflexivity]].
      right. destruct (apply_cases _ _ _ _ E1) as (r1 & A1 & A2 & _). exists now, m, r1. auto. }
  all: cbn [px_step]; unfold on_cli; try (destruct (aget x (px_srv q))); try (destruct (aget x (px_cli q))); intros X; injection X as <- <-;
    left; (split; [intros now m (? & ? & E & _); discriminate|reflexivity]).
Qed.
Inductive cmove (sent : list sample) (q : dproc) (x : nat) (d : dcli) : pop -> dcli -> Prop :=
| CM_same o : cmove sent q x d o d
| CM_host h h' : cmove sent q x d (PHost x h) (DCli (cx_name d) h' (cx_conn d) (cx_ses d))
| CM_collect : cmove sent q x d PCollect (cx_check (cx_refresh (px_reg q) d))
| CM_call : cmove sent q x d (PCall x) (cx_refresh (px_reg q) d)
| CM_fail k z : aget k (cx_ses d) = Some z ->
    cmove sent q x d (PFail x k) (DCli (cx_name d) (cx_host d) (cx_conn d) (aset k (DSes (ss_proto z) (ss_ends z) true) (cx_ses d)))
| CM_hear o now m : sees sent q o now m -> cx_name d = ca_name (attr_of m) -> cmove sent q x d o (cx_hear (ca_key (attr_of m)) (attr_of m) d).
Lemma cli_step sent o q q' out x d' : pgood q -> px_step sent o q = Some (q', out) -> aget x (px_cli q') = Some d' ->
  (exists d, aget x (px_cli q) = Some d /\ cmove sent q x d o d') \/ (exists name, o = PClient x name /\ d' = DCli name [] [] [] /\ aget x (px_cli q) = None).
Proof.
  intros PG. destruct o as [y name id r|y ms|y|y name|y h|y| | |k now|y|y k].
  9:{ destruct (hear_split sent q k now PG) as [(m & q1 & S1 & E1 & E & _)|[N E]]; rewrite E; intros X; injection X as <- <-; [|intros A; left; exists d'; split; [exact A|constructor]].
      destruct (apply_cases _ _ _ _ E1) as (r1 & _ & _ & _ & _ & ->). intros A.
      rewrite (aget_mapv (fun d => if eqb (cx_name d) (ca_name (attr_of m)) then cx_hear (ca_key (attr_of m)) (attr_of m) d else d)) in A.
      destruct (aget x (px_cli q)) as [d|]; [|discriminate]. injection A as <-. left. exists d. split; [reflexivity|].
      destruct (eqb _ _) eqn:K; [|constructor]. apply eqb_true in K. apply (CM_hear _ _ _ _ _ now m S1 K). }
  all: cbn [px_step].
  - destruct (aget y (px_srv q)); intros X A; injection X as <- <-; left; exists d'; (split; [exact A|constructor]).
  - destruct (aget y (px_srv q)); intros X A; injection X as <- <-; left; exists d'; (split; [exact A|constructor]).
  - destruct (aget y (px_srv q)); intros X A; injection X as <- <-; left; exists d'; (split; [exact A|constructor]).
  - destruct (aget y (px_cli q)) eqn:Y; intros X A; injection X as <- <-; [left; exists d'; (split; [exact A|constructor])|].
    cbn in A. rewrite aget_aset in A. destruct (eqb x y) eqn:K; [|left; exists d'; (split; [exact A|constructor])].
    apply eqb_true in K. subst y. injection A as <-. right. eauto.
  - unfold on_cli. destruct (aget y (px_cli q)) as [d|] eqn:Y; intros X A; injection X as <- <-; [|left; exists d'; (split; [exact A|constructor])].
    cbn in A. rewrite aget_aset in A. destruct (eqb x y) eqn:K; [|left; exists d'; (split; [exact A|constructor])].
    apply eqb_true in K. subst y. injection A as <-. left. exists d. split; [exact Y|constructor].
  - intros X A; injection X as <- <-. cbn in A. rewrite aget_adel in A. destruct (eqb x y); [discriminate|]. left. exists d'. split; [exact A|constructor].
  - intros X A; injection X as <- <-. cbn in A. rewrite (aget_mapv (fun d => cx_check (cx_refresh (px_reg q) d))) in A. destruct (aget x (px_cli q)) as [d|]; [|discriminate].
    injection A as <-. left. exists d. split; [reflexivity|constructor].
  - intros X A; injection X as <- <-. left. exists d'. split; [exact A|constructor].
  - unfold on_cli. destruct (aget y (px_cli q)) as [d|] eqn:Y; intros X A; injection X as <- <-; [|left; exists d'; (split; [exact A|constructor])].
    cbn in A. rewrite aget_aset in A. destruct (eqb x y) eqn:K; [|left; exists d'; (split; [exact A|constructor])].
    apply eqb_true in K. subst y. injection A as <-. left. exists d. split; [exact Y|constructor].
  - unfold on_cli. destruct (aget y (px_cli q)) as [d|] eqn:Y; intros X A; injection X as <- <-; [|left; exists d'; (split; [exact A|constructor])].
    cbn in A. rewrite aget_aset in A. destruct (eqb x y) eqn:K; [|left; exists d'; (split; [exact A|constructor])].
    apply eqb_true in K. subst y. injection A as <-. left. exists d. split; [exact Y|]. destruct (aget k (cx_ses d)) as [z|] eqn:Z; [apply CM_fail, Z|].
    destruct d; constructor.
Qed.
Lemma cli_next sent o q q' out x d : pgood q -> px_step sent o q = Some (q', out) -> aget x (px_cli q) = Some d -> o <> PGo x -> exists d', aget x (px_cli q') = Some d'.
Proof.
  intros PG. destruct o as [y name id r|y ms|y|y name|y h|y| | |k now|y|y k].
  9:{ destruct (hear_split sent q k now PG) as [(m & q1 & S1 & E1 & E & _)|[N E]]; rewrite E; intros X A _; injection X as <- <-; [|eauto].
      destruct (apply_cases _ _ _ _ E1) as (r1 & _ & _ & _ & _ & ->).
      rewrite (aget_mapv (fun d => if eqb (cx_name d) (ca_name (attr_of m)) then cx_hear (ca_key (attr_of m)) (attr_of m) d else d)), A. eauto. }
  all: cbn [px_step].
  - destruct (aget y (px_srv q)); intros X A _; injection X as <- <-; eauto.
  - destruct (aget y (px_srv q)); intros X A _; injection X as <- <-; eauto.
  - destruct (aget y (px_srv q)); intros X A _; injection X as <- <-; eauto.
  - destruct (aget y (px_cli q)) eqn:Y; intros X A _; injection X as <- <-; [eauto|]. cbn. rewrite aget_aset. destruct (eqb x y); eauto.
  - unfold on_cli. destruct (aget y (px_cli q)) eqn:Y; intros X A _; injection X as <- <-; [|eauto]. cbn. rewrite aget_aset. destruct (eqb x y); eauto.
  - intros X A NG; injection X as <- <-. cbn. rewrite aget_adel. rewrite (neq_eqb x y) by congruence. eauto.
  - intros X A _; injection X as <- <-. cbn. rewrite (aget_mapv (fun d => cx_check (cx_refresh (px_reg q) d))), A. eauto.
  - intros X A _; injection X as <- <-. eauto.
  - unfold on_cli. destruct (aget y (px_cli q)) eqn:Y; intros X A _; injection X as <- <-; [|eauto]. cbn. rewrite aget_aset. destruct (eqb x y); eauto.
  - unfold on_cli. destruct (aget y (px_cli q)) eqn:Y; intros X A _; injection X as <- <-; [|eauto]. cbn. rewrite aget_aset. destruct (eqb x y); eauto.
Qed.
Lemma srv_step sent o q q' out x e' : pgood q -> px_step sent o q = Some (q', out) -> aget x (px_srv q') = Some e' ->
  (exists e, aget x (px_srv q) = Some e /\ (e' = e \/ exists ms, o = PMethods x ms /\ sx_name e' = sx_name e /\ sx_id e' = sx_id e /\ sv_methods (sx_rest e') = ms /\
     sv_version (sx_rest e') = sv_version (sx_rest e) /\ sv_port0 (sx_rest e') = sv_port0 (sx_rest e) /\ sv_port1 (sx_rest e') = sv_port1 (sx_rest e))) \/
  (exists name id r, o = PServe x name id r /\ e' = DSrv name id r).
Proof.
  intros PG. destruct o as [y name id r|y ms|y|y name|y h|y| | |k now|y|y k].
  9:{ destruct (hear_split sent q k now PG) as [(m & q1 & S1 & E1 & E & _)|[N E]]; rewrite E; intros X A; injection X as <- <-; left; exists e'; [|auto].
      destruct (apply_cases _ _ _ _ E1) as (r1 & _ & _ & S2 & _). rewrite S2 in A. auto. }
  all: cbn [px_step].
  - destruct (aget y (px_srv q)) eqn:Y; intros X A; injection X as <- <-; [left; eauto|]. cbn in A. rewrite aget_aset in A. destruct (eqb x y) eqn:K; [|left; eauto].
    apply eqb_true in K. subst y. injection A as <-. right. eauto.
  - destruct (aget y (px_srv q)) eqn:Y; intros X A; injection X as <- <-; [|left; eauto]. cbn in A. rewrite aget_aset in A. destruct (eqb x y) eqn:K; [|left; eauto].
    apply eqb_true in K. subst y. injection A as <-. left. eexists. split; [exact Y|]. right. exists ms. cbn. repeat split.
  - destruct (aget y (px_srv q)) eqn:Y; intros X A; injection X as <- <-; [|left; eauto]. cbn in A. rewrite aget_adel in A. destruct (eqb x y); [discriminate|]. left. eauto.
  - destruct (aget y (px_cli q)); intros X A; injection X as <- <-; left; eauto.
  - unfold on_cli. destruct (aget y (px_cli q)); intros X A; injection X as <- <-; left; eauto.
  - intros X A; injection X as <- <-; left; eauto.
  - intros X A; injection X as <- <-; left; eauto.
  - intros X A; injection X as <- <-; left; eauto.
  - unfold on_cli. destruct (aget y (px_cli q)); intros X A; injection X as <- <-; left; eauto.
  - unfold on_cli. destruct (aget y (px_cli q)); intros X A; injection X as <- <-; left; eauto.
Qed.
Lemma out_step sent o q q' out : pgood q -> px_step sent o q = Some (q', out) ->
  (forall m, In m out -> (exists x e, aget x (px_srv q) = Some e /\ m = sx_reg (px_cfg q) e) \/ In m (px_applied q)) /\
  (forall m, In m (px_applied q') -> In m (px_applied q) \/ exists x e, aget x (px_srv q) = Some e /\ m = sx_unreg (px_cfg q) e).
Proof.
  intros PG. destruct o as [y name id r|y ms|y|y name|y h|y| | |k now|y|y k].
  9:{ destruct (hear_split sent q k now PG) as [(m & q1 & S1 & E1 & E & _)|[N E]]; rewrite E; intros X; injection X as <- <-; (split; [intros m' []|]); [|auto].
      destruct (apply_cases _ _ _ _ E1) as (r1 & _ & _ & _ & S2 & _). rewrite S2. auto. }
  all: cbn [px_step].
  - destruct (aget y (px_srv q)); intros X; injection X as <- <-; (split; [intros m []|auto]).
  - destruct (aget y (px_srv q)); intros X; injection X as <- <-; (split; [intros m []|auto]).
  - destruct (aget y (px_srv q)) as [e|] eqn:Y; intros X; injection X as <- <-; (split; [intros m []|]); [|auto]. intros m I1. cbn in I1. apply in_app_iff in I1.
    destruct I1 as [I1|[<-|[]]]; [auto|]. right. eauto.
  - destruct (aget y (px_cli q)); intros X; injection X as <- <-; (split; [intros m []|auto]).
  - unfold on_cli. destruct (aget y (px_cli q)); intros X; injection X as <- <-; (split; [intros m []|auto]).
  - intros X; injection X as <- <-; (split; [intros m []|auto]).
  - intros X; injection X as <- <-. split; [|auto]. intros m I1. apply in_map_iff in I1. destruct I1 as ([x e] & <- & I1). left. exists x, e. split; [|reflexivity].
    apply in_aget; [apply PG|exact I1].
  - intros X; injection X as <- <-. split; [auto|]. intros m [].
  - unfold on_cli. destruct (aget y (px_cli q)); intros X; injection X as <- <-; (split; [intros m []|auto]).
  - unfold on_cli. destruct (aget y (px_cli q)); intros X; injection X as <- <-; (split; [intros m []|auto]).
Qed.

(** ** Every datagram was written by a server *)
Definition born (ops : list dop) (m : sample) : Prop :=
  exists a b s1 p x c e, ops = a ++ b /\ dreach a s1 /\ server s1 p x c e /\ (m = sx_reg c e \/ m = sx_unreg c e).
Lemma born_more ops l m : born ops m -> born (ops ++ l) m.
Proof. intros (a & b & s1 & p & x & c & e & -> & R). exists a, (b ++ l), s1, p, x, c, e. rewrite app_assoc. auto. Qed.
Lemma all_born ops : forall s, dreach ops s ->
  (forall m, In m (dn_sent s) -> born ops m) /\ (forall p q m, aget p (dn_procs s) = Some q -> In m (px_applied q) -> born ops m).
Proof.
  induction ops as [|o ops IH] using rev_ind; intros s R.
  - injection R as <-. split; [intros m []|intros p q m E; discriminate].
  - apply reach_snoc in R. destruct R as (s1 & R & E). destruct (IH s1 R) as [IS IP]. pose proof (reach_good _ _ R) as G.
    assert (own : forall p q x e m, aget p (dn_procs s1) = Some q -> aget x (px_srv q) = Some e -> m = sx_reg (px_cfg q) e \/ m = sx_unreg (px_cfg q) e -> born (ops ++ [o]) m).
    { intros p q x e m A1 A2 M. exists ops, [o], s1, p, x, (px_cfg q), e. repeat split; auto. exists q. auto. }
    split.
    + intros m I1. destruct o as [p0 c|p0 po]; cbn [dn_step] in E.
      * destruct (aget p0 (dn_procs s1)); injection E as <-; apply born_more, IS, I1.
      * destruct (aget p0 (dn_procs s1)) as [q0|] eqn:A0; [|injection E as <-; apply born_more, IS, I1].
        destruct (px_step (dn_sent s1) po q0) as [[q1 out]|] eqn:PS; [|discriminate]. injection E as <-. cbn in I1. apply in_app_iff in I1.
        destruct I1 as [I1|I1]; [apply born_more, IS, I1|]. destruct (proj1 (out_step _ _ _ _ _ (G p0 q0 A0) PS) m I1) as [(x & e & X1 & X2)|X1].
        -- apply (own p0 q0 x e m A0 X1). auto.
        -- apply born_more, (IP p0 q0 m A0 X1).
    + intros p q' m A I1. destruct (proc_step _ _ _ _ _ E A) as [[A1 _]|[(c & _ & [[_ ->]|A1])|(po & q & out & -> & A1 & PS & _)]].
      * apply born_more, (IP p q' m A1 I1).
      * destruct I1.
      * apply born_more, (IP p q' m A1 I1).
      * destruct (proj2 (out_step _ _ _ _ _ (G p q A1) PS) m I1) as [X|(x & e & X1 & X2)]; [apply born_more, (IP p q m A1 X)|]. apply (own p q x e m A1 X1). auto.
Qed.
Lemma sane_app a b : dsane (a ++ b) <-> dsane a /\ dsane b.
Proof. apply Forall_app. Qed.
Lemma server_sane ops : dsane ops -> forall s, dreach ops s ->
  (forall p q, aget p (dn_procs s) = Some q -> i32 (pc_pid (px_cfg q))) /\
  (forall p x c e, server s p x c e -> Forall wf_method (sv_methods (sx_rest e)) /\ u32 (sv_version (sx_rest e)) /\ port (sv_port0 (sx_rest e)) /\ port (sv_port1 (sx_rest e))).
Proof.
  induction ops as [|o ops IH] using rev_ind; intros S1 s R.
  - injection R as <-. split; [intros p q E; discriminate|intros p x c e (q & E & _); discriminate].
  - apply sane_app in S1. destruct S1 as [S1 S2]. inversion S2 as [|? ? S3 _]; subst. apply reach_snoc in R. destruct R as (s1 & R & E).
    destruct (IH S1 s1 R) as [IP IE]. pose proof (reach_good _ _ R) as G. split.
    + intros p q' A. destruct (proc_step _ _ _ _ _ E A) as [[A1 _]|[(c & -> & [[_ ->]|A1])|(po & q & out & -> & A1 & PS & _)]]; try exact (IP p q' A1); [exact S3|].
      rewrite (cfg_step _ _ _ _ _ (G p q A1) PS). apply (IP p q A1).
    + intros p x c e' (q' & A & C & SV). destruct (proc_step _ _ _ _ _ E A) as [[A1 _]|[(c0 & -> & [[_ ->]|A1])|(po & q & out & -> & A1 & PS & _)]].
      * apply (IE p x c e'). exists q'. auto.
      * discriminate.
      * apply (IE p x c e'). exists q'. auto.
      * destruct (srv_step _ _ _ _ _ _ _ (G p q A1) PS SV) as [(e & X & [->|(ms & -> & _ & _ & M1 & M2 & M3 & M4)])|(n & i & r & -> & ->)].
        -- apply (IE p x (px_cfg q) e). exists q. auto.
        -- rewrite M1, M2, M3, M4. destruct (IE p x (px_cfg q) e) as (_ & Y); [exists q; auto|]. split; [exact S3|exact Y].
        -- exact S3.
Qed.
Lemma wf_tail : wf_process process0 /\ wf_client client0 /\ wf_topic topic0 /\ wf_service service0.
Proof. repeat split; try constructor; try (unfold i32, i64, u32; cbn; lia); discriminate. Qed.
Lemma port_u32 z : port z -> u32 z.
Proof. unfold port, u32. lia. Qed.
Lemma port0_sane c e : port (sv_port0 (sx_rest e)) -> port (sx_port0 c e).
Proof. unfold sx_port0. destruct (pc_v0 c); [auto|]. unfold port. lia. Qed.
Lemma port1_sane c e : port (sv_port1 (sx_rest e)) -> port (sx_port1 c e).
Proof. unfold sx_port1. destruct (pc_v1 c); [auto|]. unfold port. lia. Qed.
Lemma born_back ops m : dsane ops -> born ops m -> (len (ser_sample m) < 2 ^ 32)%Z -> de_sample (ser_sample m) = Ok m.
Proof.
  intros S1 (a & b & s1 & p & x & c & e & -> & R & SV & EM) L. apply sane_app in S1. destruct S1 as [S1 _].
  destruct (server_sane a S1 s1 R) as [IP IE]. destruct (IE _ _ _ _ SV) as (M1 & M2 & M3 & M4). destruct SV as (q & A & <- & _). pose proof (IP p q A) as P1.
  destruct wf_tail as (W1 & W2 & W3 & W4). assert (Z0 : i32 0) by (unfold i32; lia). assert (Z1 : u32 0) by (unfold u32; lia).
  rewrite sample_round; [| |exact L].
  - destruct EM as [->| ->]; [|reflexivity]. unfold sx_reg. destruct (_ && _)%bool; [reflexivity|]. destruct (_ && _)%bool; reflexivity.
  - assert (WC : forall c0, c0 = bct_reg_service \/ c0 = bct_unreg_service -> wf_cmd c0) by (intros c0 [-> | ->] z X; discriminate).
    destruct EM as [->| ->].
    + unfold sx_reg. destruct (_ && _)%bool; [|destruct (_ && _)%bool]; unfold wf_sample; cbn [sm_cmd sm_pid sm_process sm_service sm_client sm_topic];
        (split; [apply WC; auto|]); (split; [assumption|]); (split; [exact W1|]); (split; [|split; [exact W2|exact W3]]); [exact W4|exact W4|].
      unfold wf_service. cbn. repeat split; auto using port_u32, port0_sane, port1_sane; try apply Z0; try apply M2; try apply port_u32, port0_sane, M3; try apply port_u32, port1_sane, M4.
    + unfold sx_unreg, wf_sample; cbn [sm_cmd sm_pid sm_process sm_service sm_client sm_topic].
      (split; [apply WC; auto|]); (split; [assumption|]); (split; [exact W1|]); (split; [|split; [exact W2|exact W3]]).
      unfold wf_service. cbn. repeat split; try apply Z0; try apply M2; try apply Z1; constructor.
Qed.
Lemma fits_prefix s out s1 : dn_sent s = dn_sent s1 ++ out -> dfits s -> dfits s1.
Proof. intros E F m I1. apply F. rewrite E. apply in_app_iff. auto. Qed.
Lemma sees_born ops s q o now m : dsane ops -> dreach ops s -> dfits s -> sees (dn_sent s) q o now m ->
  exists k, o = PHear k now /\ nth_error (dn_sent s) k = Some m /\ born ops m /\ registers m /\ minds (px_cfg q) (sm_host m) (sm_pid m).
Proof.
  intros S1 R F (k & m0 & -> & N & D & RG & A). pose proof (nth_error_In _ _ N) as I1. pose proof (proj1 (all_born ops s R) m0 I1) as B.
  rewrite (born_back ops m0 S1 B (F m0 I1)) in D. injection D as <-. exists k. repeat split; auto. apply accept_minds; assumption.
Qed.

(** ** What is known is true *)
Lemma reg_facts c e : port (sv_port0 (sx_rest e)) -> port (sv_port1 (sx_rest e)) ->
  (listening c e /\ attr_of (sx_reg c e) = facts c e /\ tells c e (sx_reg c e)) \/ (~ listening c e /\ attr_of (sx_reg c e) = nobody /\ sm_host (sx_reg c e) = [] /\ sm_pid (sx_reg c e) = 0%Z).
Proof.
  intros P0 P1. unfold sx_reg, listening. destruct (pc_v0 c && (sx_port0 c e =? 0)%Z)%bool eqn:B0.
  { right. apply andb_true_iff in B0. destruct B0 as [B0 B1]. apply Z.eqb_eq in B1. unfold sx_port0 in B1. rewrite B0 in B1.
    split; [intros [H _]; apply (H B0 B1)|]. repeat split. }
  destruct (pc_v1 c && (sx_port1 c e =? 0)%Z)%bool eqn:B1.
  { right. apply andb_true_iff in B1. destruct B1 as [B1 B2]. apply Z.eqb_eq in B2. unfold sx_port1 in B2. rewrite B1 in B2.
    split; [intros [_ H]; apply (H B1 B2)|]. repeat split. }
  left. split; [|split].
  - unfold sx_port0, sx_port1 in *. split; intros V E; rewrite V in *; [rewrite E in B0|rewrite E in B1]; discriminate.
  - unfold attr_of, facts. cbn. f_equal; apply Z.mod_small; [apply (port0_sane c e P0)|apply (port1_sane c e P1)].
  - unfold tells, registers. repeat split.
Qed.
Lemma minds_empty c pid : minds c [] pid -> pc_network c = true.
Proof. intros [[[_ H] _]|[_ H]]; [contradiction|exact H]. Qed.
Lemma born_real ops m c : dsane ops -> born ops m -> registers m -> minds c (sm_host m) (sm_pid m) -> real ops c (attr_of m).
Proof.
  intros S1 (a & b & s1 & p & x & c' & e & EQ & R & SV & [->| ->]) RG MI; [|discriminate]. exists a, b, s1, p, x, c', e. split; [exact EQ|]. split; [exact R|]. split; [exact SV|].
  subst ops. apply sane_app in S1. destruct (proj2 (server_sane a (proj1 S1) s1 R) _ _ _ _ SV) as (_ & _ & P0 & P1).
  destruct (reg_facts c' e P0 P1) as [(L & F & T)|(L & F & H1 & H2)].
  - left. destruct T as (_ & _ & T1 & T2 & _). rewrite T1, T2 in MI. auto.
  - right. rewrite H1 in MI. split; [exact L|]. split; [exact F|]. apply (minds_empty _ _ MI).
Qed.
Lemma real_more ops l c a : real ops c a -> real (ops ++ l) c a.
Proof. intros (o1 & o2 & s1 & p & x & c' & e & -> & R). exists o1, (o2 ++ l), s1, p, x, c', e. rewrite app_assoc. auto. Qed.

Definition cin (R : dattr -> Prop) (d : dcli) : Prop :=
  (forall k a, In (k, a) (cx_conn d) -> k = ca_key a /\ ca_name a = cx_name d /\ R a) /\
  (forall k z, In (k, z) (cx_ses d) -> exists a, k = ca_key a /\ ca_name a = cx_name d /\ R a /\ ss_proto z = ss_proto (dial a) /\ ss_ends z = ss_ends (dial a)).
Definition pin (R : dattr -> Prop) (q : dproc) : Prop :=
  (forall k a, In (k, a) (em_contents (px_reg q)) -> k = ca_key a /\ R a) /\ (forall x d, aget x (px_cli q) = Some d -> cin R d).
Lemma named_in n r a : In a (named n r) <-> ca_name a = n /\ exists k, In (k, a) (em_contents r).
Proof.
  unfold named. rewrite filter_In, in_map_iff. split.
  - intros [([k a'] & E & I1) N]. cbn in E. subst a'. apply eqb_true in N. eauto.
  - intros [N (k & I1)]. split; [exists (k, a); auto|]. rewrite N. apply eqb_refl.
Qed.
Lemma move_in sent R q x d o d' : pgood q -> pin R q -> (forall now m, sees sent q o now m -> R (attr_of m)) -> cgood d -> cin R d -> cmove sent q x d o d' -> cin R d'.
Proof.
  intros PG [PK _] RS CG [C1 C2] M.
  assert (RF : forall k z, In (k, z) (open_all (named (cx_name d) (px_reg q)) (cx_ses d)) ->
    exists a, k = ca_key a /\ ca_name a = cx_name d /\ R a /\ ss_proto z = ss_proto (dial a) /\ ss_ends z = ss_ends (dial a)).
  { intros k z I1. apply in_aget in I1; [|apply open_nodup, CG]. destruct (open_from _ _ _ _ I1) as [G|(_ & a & A1 & -> & ->)].
    - apply C2, aget_in, G.
    - apply named_in in A1. destruct A1 as [A1 (k' & A2)]. destruct (PK _ _ A2) as [-> A3]. exists a. auto. }
  inversion M; subst; try (split; assumption).
  - split; [|exact RF]. cbn. intros k a I1. apply drop_in in I1. apply C1, I1.
  - split; [exact C1|]. cbn. intros k0 z0 I1. apply in_aset in I1; [|apply CG]. destruct I1 as [[-> ->]|[_ I1]]; [|apply C2, I1]. cbn.
    apply C2. apply aget_in; assumption.
  - unfold cx_hear. destruct (aget _ (cx_conn d)) eqn:K; [split; assumption|]. split; [|exact C2]. cbn. intros k a I1. apply in_aset in I1; [|apply CG].
    destruct I1 as [[-> ->]|[_ I1]]; [|apply C1, I1]. split; [reflexivity|]. split; [symmetry; assumption|]. eapply RS; eassumption.
Qed.
Lemma pin_step sent R o q q' out : pgood q -> pin R q -> (forall now m, sees sent q o now m -> R (attr_of m)) -> px_step sent o q = Some (q', out) -> pin R q'.
Proof.
  intros PG PI RS E. split.
  - intros k a I1. destruct (reg_step _ _ _ _ _ PG E) as [[_ EQ]|(now & m & r1 & S1 & IX & EQ)].
    + rewrite EQ in I1. apply (proj1 PI _ _ I1).
    + destruct (step_ok sent o q PG) as (q1 & o1 & E1 & G1). rewrite E in E1. injection E1 as <- <-.
      apply contents_aget in I1; [|apply (pg_reg _ G1)]. destruct I1 as (e & A & <-). rewrite EQ in A. apply expire_sub in A.
      destruct (index_vals _ _ _ _ _ _ IX _ _ A) as [[-> V]|[_ V]].
      * rewrite V. split; [reflexivity|]. apply (RS _ _ S1).
      * apply (proj1 PI). apply contents_aget; [apply (pg_reg _ PG)|]. eauto.
  - intros x d' A. destruct (cli_step _ _ _ _ _ _ _ PG E A) as [(d & B & M)|(n & -> & -> & _)].
    + apply (move_in sent R q x d o d'); auto; [apply (pg_each _ PG x d), aget_in, B|apply (proj2 PI x d B)].
    + split; [intros k a []|intros k z []].
Qed.
Lemma pin_mono (R R' : dattr -> Prop) q : (forall a, R a -> R' a) -> pin R q -> pin R' q.
Proof.
  intros I1 [P1 P2]. split.
  - intros k a H. destruct (P1 k a H). auto.
  - intros x d A. destruct (P2 x d A) as [C1 C2]. split; [intros k a H; destruct (C1 k a H) as (? & ? & ?); auto|].
    intros k z H. destruct (C2 k z H) as (a & ? & ? & ? & ?). exists a. auto.
Qed.
Lemma origin ops : dsane ops -> forall s, dreach ops s -> dfits s -> forall p q, aget p (dn_procs s) = Some q -> pin (real ops (px_cfg q)) q.
Proof.
  induction ops as [|o ops IH] using rev_ind; intros S1 s R F p q' A.
  - injection R as <-. discriminate.
  - pose proof S1 as S0. apply sane_app in S1. destruct S1 as [S1 S2]. apply reach_snoc in R. destruct R as (s1 & R & E). pose proof (reach_good _ _ R) as G.
    destruct (sent_step _ _ _ E) as (out & ES). pose proof (fits_prefix _ _ _ ES F) as F1. specialize (IH S1 s1 R F1).
    destruct (proc_step _ _ _ _ _ E A) as [[A1 _]|[(c & _ & [[_ ->]|A1])|(po & q & out1 & -> & A1 & PS & _)]].
    + apply (pin_mono (real ops (px_cfg q'))); [intros a; apply real_more|apply (IH p q' A1)].
    + split; [intros k a []|intros x d X; discriminate].
    + apply (pin_mono (real ops (px_cfg q'))); [intros a; apply real_more|apply (IH p q' A1)].
    + rewrite (cfg_step _ _ _ _ _ (G p q A1) PS). apply (pin_step (dn_sent s1) _ po q q' out1 (G p q A1)); [| |exact PS].
      * apply (pin_mono (real ops (px_cfg q))); [intros a; apply real_more|apply (IH p q A1)].
      * intros now m SE. destruct (sees_born ops s1 q po now m S1 R F1 SE) as (k & _ & _ & B & RG & MI). apply real_more. apply born_real; assumption.
Qed.
Lemma known_lemma ops s p c a : dsane ops -> dreach ops s -> dfits s -> runs s p c -> knows s p a -> real ops c a.
Proof. intros S1 R F (q & A & <-) (q' & A' & I1). rewrite A in A'. injection A' as <-. apply (proj1 (origin ops S1 s R F p q A) _ _ I1). Qed.
Lemma counted_lemma ops s p x c d k a : dsane ops -> dreach ops s -> dfits s -> client_of s p x c d -> In (k, a) (cx_conn d) ->
  k = ca_key a /\ ca_name a = cx_name d /\ real ops c a.
Proof. intros S1 R F (q & A & <- & CL) I1. apply (proj1 (proj2 (origin ops S1 s R F p q A) x d CL) _ _ I1). Qed.
Lemma dial_best a : exists pt proto, leads (dial a) (ca_host a) pt proto /\ best a pt proto.
Proof.
  unfold dial, leads, best. cbn. destruct (Z.eqb_spec (ca_port1 a) 0) as [E|E].
  - exists (ca_port0 a), 0%Z. split; [split; reflexivity|]. right. auto.
  - destruct (Z.eqb_spec (ca_version a) 0) as [V|V].
    + exists (ca_port0 a), 0%Z. rewrite V. split; [split; reflexivity|]. right. auto.
    + exists (ca_port1 a), (ca_version a mod 256)%Z. split; [split; reflexivity|]. left. auto.
Qed.
Lemma session_lemma ops s p x c d k z : dsane ops -> dreach ops s -> dfits s -> client_of s p x c d -> session d k z ->
  exists a pt proto, k = ca_key a /\ ca_name a = cx_name d /\ real ops c a /\ leads z (ca_host a) pt proto /\ best a pt proto.
Proof.
  intros S1 R F (q & A & <- & CL) I1. destruct (proj2 (proj2 (origin ops S1 s R F p q A) x d CL) _ _ I1) as (a & K & N & RE & P1 & P2).
  destruct (dial_best a) as (pt & proto & [L1 L2] & B). exists a, pt, proto. repeat split; auto; congruence.
Qed.
Lemma deaf_lemma ops s p c a : dsane ops -> dreach ops s -> dfits s -> runs s p c -> pc_network c = false -> knows s p a -> ca_host a = pc_group c /\ ca_host a <> [].
Proof.
  intros S1 R F RU NW K. destruct (known_lemma ops s p c a S1 R F RU K) as (o1 & o2 & s1 & p' & x & c' & e & _ & _ & _ & [(_ & -> & M)|(_ & _ & X)]); [|congruence].
  destruct M as [[[N1 N2] _]|[_ X]]; [|congruence]. split; assumption.
Qed.

(** ** A cycle *)
Lemma cycle_lemma ops s s' p x c e : dsane ops -> dreach ops s -> server s p x c e -> dreach (ops ++ [DAt p PCollect]) s' ->
  exists i m, length (dn_sent s) <= i /\ nth_error (dn_sent s') i = Some m /\ server s' p x c e /\
    ((listening c e /\ tells c e m) \/ (~ listening c e /\ attr_of m = nobody)).
Proof.
  intros S1 R SV R'. destruct (proj2 (server_sane ops S1 s R) _ _ _ _ SV) as (_ & _ & P0 & P1). destruct SV as (q & A & C & SX). apply reach_snoc in R'.
  destruct R' as (s1 & R1 & E). rewrite (reach_fun _ _ _ R1 R) in E. cbn [dn_step px_step] in E. rewrite A in E. injection E as <-. cbn [dn_sent dn_procs].
  assert (I1 : In (sx_reg c e) (map (fun xe => sx_reg (px_cfg q) (snd xe)) (px_srv q))).
  { apply in_map_iff. exists (x, e). rewrite C. split; [reflexivity|]. apply aget_in, SX. }
  apply In_nth_error in I1. destruct I1 as (j & J). exists (length (dn_sent s) + j), (sx_reg c e). split; [lia|]. split.
  { rewrite nth_error_app2 by lia. replace (length (dn_sent s) + j - length (dn_sent s)) with j by lia. exact J. }
  split; [exists (with_cli q (map (fun xc => (fst xc, cx_check (cx_refresh (px_reg q) (snd xc)))) (px_cli q))); cbn; rewrite aget_aset_same; auto|].
  destruct (reg_facts c e P0 P1) as [(L & _ & T)|(L & T & _)]; auto.
Qed.

(** ** Times *)
Lemma times_app p a b : dtimes p (a ++ b) = dtimes p a ++ dtimes p b.
Proof. apply flat_map_app. Qed.
Lemma times_in p i t ops : In (DAt p (PHear i t)) ops -> In t (dtimes p ops).
Proof. intros I1. apply in_flat_map. exists (DAt p (PHear i t)). split; [exact I1|]. rewrite Nat.eqb_refl. left. reflexivity. Qed.
Lemma in_times p t ops : In t (dtimes p ops) -> exists i, In (DAt p (PHear i t)) ops.
Proof.
  intros I1. apply in_flat_map in I1. destruct I1 as (o & I1 & I2). destruct o as [|p' po]; [destruct I2|]. destruct po; try (destruct I2; fail).
  destruct (Nat.eqb_spec p' p) as [->|]; [|destruct I2]. destruct I2 as [<-|[]]. eauto.
Qed.
Lemma rising_app a b : rising (a ++ b) <-> rising a /\ rising b /\ forall t u, In t a -> In u b -> (t <= u)%Z.
Proof.
  induction a as [|t a IH]; cbn; [intuition|]. rewrite IH. split.
  - intros (H1 & H2 & H3 & H4). repeat split; auto.
    + intros u I1. apply H1, in_app_iff. auto.
    + intros t' u [<-|I1] I2; [apply H1, in_app_iff; auto|auto].
  - intros ((H1 & H2) & H3 & H4). repeat split; auto. intros u I1. apply in_app_iff in I1. destruct I1; auto.
Qed.
Lemma steady_app p a b : dsteady p (a ++ b) -> dsteady p a.
Proof. unfold dsteady. rewrite times_app, rising_app. tauto. Qed.
Lemma new_inv t T : Inv t (em_new T : rmap).
Proof. constructor; [apply inv0_new|intros c []|constructor|intros c []]. Qed.
(** The table at all times: sorted, and every entry was told in a delivery at its time. *)
Lemma told_attr ops m : dsane ops -> born ops m -> registers m -> told (attr_of m) m.
Proof.
  intros S1 (a & b & s1 & p & x & c' & e & -> & R & SV & [->| ->]) RG; [|discriminate]. apply sane_app in S1.
  destruct (proj2 (server_sane a (proj1 S1) s1 R) _ _ _ _ SV) as (_ & _ & P0 & P1). apply (port0_sane c') in P0. apply (port1_sane c') in P1.
  unfold told, sx_reg in *. destruct (_ && _)%bool; [repeat split|]. destruct (_ && _)%bool; [repeat split|]. cbn. repeat split; symmetry; apply Z.mod_small; assumption.
Qed.
Definition timely (ops : list dop) (s : dnet) (p : nat) (q : dproc) : Prop :=
  (forall now, (forall u, In u (dtimes p ops) -> (u <= now)%Z) -> Inv now (px_reg q)) /\
  (forall k a t, a_list (abs (px_reg q)) k = Some (a, t) ->
     exists i m, In (DAt p (PHear i t)) ops /\ nth_error (dn_sent s) i = Some m /\ told a m /\ k = ca_key a).
Lemma nth_more {A} (l l' : list A) i m : nth_error l i = Some m -> nth_error (l ++ l') i = Some m.
Proof. intros N. rewrite nth_error_app1; [exact N|]. apply nth_error_Some. congruence. Qed.
Lemma always_timely ops p : dsane ops -> dsteady p ops -> forall s, dreach ops s -> dfits s -> forall q, aget p (dn_procs s) = Some q -> timely ops s p q.
Proof.
  induction ops as [|o ops IH] using rev_ind; intros S1 ST s R F q' A.
  - injection R as <-. discriminate.
  - apply sane_app in S1. destruct S1 as [S1 S2]. apply reach_snoc in R. destruct R as (s1 & R & E). pose proof (reach_good _ _ R) as G.
    destruct (sent_step _ _ _ E) as (out & ES). pose proof (fits_prefix _ _ _ ES F) as F1. specialize (IH S1 (steady_app _ _ _ ST) s1 R F1).
    assert (keep : forall q, aget p (dn_procs s1) = Some q -> px_reg q' = px_reg q -> timely (ops ++ [o]) s p q').
    { intros q A1 EQ. destruct (IH q A1) as [T1 T2]. split.
      - intros now U. rewrite EQ. apply T1. intros u I1. apply U. rewrite times_app. apply in_app_iff. auto.
      - intros k a t AB. rewrite EQ in AB. destruct (T2 k a t AB) as (i & m & X1 & X2 & X3). exists i, m. split; [apply in_app_iff; auto|]. split; [rewrite ES; apply nth_more, X2|exact X3]. }
    destruct (proc_step _ _ _ _ _ E A) as [[A1 _]|[(c & _ & [[_ ->]|A1])|(po & q & out1 & -> & A1 & PS & _)]].
    + apply (keep q' A1 eq_refl).
    + split; [intros now _; apply new_inv|]. intros k a t AB. discriminate.
    + apply (keep q' A1 eq_refl).
    + destruct (reg_step _ _ _ _ _ (G p q A1) PS) as [[_ EQ]|(now & m & r1 & SE & IX & EQ)]; [apply (keep q A1 EQ)|].
      destruct (sees_born ops s1 q po now m S1 R F1 SE) as (i & -> & N & B & RG & MI). destruct (IH q A1) as [T1 T2].
      unfold dsteady in ST. rewrite times_app, rising_app in ST. destruct ST as (_ & _ & ST). cbn in ST. rewrite Nat.eqb_refl in ST.
      assert (IN : Inv now (px_reg q)) by (apply T1; intros u I1; apply ST; [exact I1|left; reflexivity]).
      destruct (put_spec now now (attr_of m) (px_reg q) r1 IN ltac:(lia) IX) as [I2 AB]; [rewrite (pg_time _ (G p q A1)); unfold forget_after; lia|].
      rewrite <- EQ in I2, AB. split.
      * intros now' U. apply (inv_weaken now); [exact I2|]. apply U. rewrite times_app. apply in_app_iff. right. cbn. rewrite Nat.eqb_refl. left. reflexivity.
      * intros k a t X. rewrite AB in X. destruct (eqb k (ca_key (attr_of m))) eqn:K.
        -- apply eqb_true in K. injection X as <- <-. exists i, m. split; [apply in_app_iff; right; left; reflexivity|]. split; [rewrite ES; apply nth_more, N|].
           split; [apply (told_attr ops); assumption|exact K].
        -- destruct (a_list (abs (px_reg q)) k) as [[v tk]|] eqn:Y; [|discriminate]. destruct (Z.ltb _ _); [discriminate|]. injection X as <- <-.
           destruct (T2 k v tk Y) as (j & m' & X1 & X2 & X3). exists j, m'. split; [apply in_app_iff; auto|]. split; [rewrite ES; apply nth_more, X2|exact X3].
Qed.
Lemma knows_abs ops s p q a : dsane ops -> dsteady p ops -> dreach ops s -> dfits s -> aget p (dn_procs s) = Some q ->
  (knows s p a <-> exists t, a_list (abs (px_reg q)) (ca_key a) = Some (a, t)).
Proof.
  intros S1 ST R F A. destruct (always_timely ops p S1 ST s R F q A) as [T1 _].
  assert (X : exists n, forall u, In u (dtimes p ops) -> (u <= n)%Z).
  { generalize (dtimes p ops). intros l. exists (fold_right Z.max 0%Z l). induction l as [|u l IH]; intros w I1; [destruct I1|]. cbn. destruct I1 as [->|I1]; [lia|]. specialize (IH w I1). lia. }
  destruct X as (n & X). specialize (T1 n X). split.
  - intros (q1 & A1 & I1). rewrite A in A1. injection A1 as <-. apply (abs_contents n) in I1; assumption.
  - intros AB. exists q. split; [exact A|]. apply (abs_contents n); assumption.
Qed.

(** ** A registration is heard *)
Lemma heard_step ops s1 p q i t m s : dsane (ops ++ [DAt p (PHear i t)]) -> dreach ops s1 -> dreach (ops ++ [DAt p (PHear i t)]) s -> dfits s ->
  aget p (dn_procs s1) = Some q -> nth_error (dn_sent s1) i = Some m -> registers m -> minds (px_cfg q) (sm_host m) (sm_pid m) ->
  sees (dn_sent s1) q (PHear i t) t m /\ told (attr_of m) m /\ dn_sent s = dn_sent s1 /\
  exists q', aget p (dn_procs s) = Some q' /\ px_step (dn_sent s1) (PHear i t) q = Some (q', []) /\ px_apply t m q = Some q'.
Proof.
  intros S1 R R' F A N RG MI. apply sane_app in S1. destruct S1 as [S1 _]. pose proof (reach_good _ _ R) as G. apply reach_snoc in R'. destruct R' as (s2 & R2 & E).
  rewrite (reach_fun _ _ _ R2 R) in E. destruct (sent_step _ _ _ E) as (out & ES). pose proof (fits_prefix _ _ _ ES F) as F1.
  pose proof (nth_error_In _ _ N) as I1. pose proof (proj1 (all_born ops s1 R) m I1) as B. pose proof (born_back ops m S1 B (F1 m I1)) as D.
  assert (SE : sees (dn_sent s1) q (PHear i t) t m) by (exists i, m; repeat split; auto; apply accept_minds; assumption).
  split; [exact SE|]. split; [apply (told_attr ops); assumption|]. destruct (hear_split (dn_sent s1) q i t (G p q A)) as [(m' & q' & SE' & AP & PS & _)|[NO _]]; [|destruct (NO m t SE)].
  assert (m' = m) as -> by (destruct SE' as (k & m1 & K & N1 & D1 & _); injection K as <-; rewrite N in N1; injection N1 as <-; congruence).
  cbn [dn_step] in E. rewrite A, PS in E. injection E as <-. cbn. split; [apply app_nil_r|]. exists q'. rewrite aget_aset_same. auto.
Qed.
Lemma heard_lemma ops s1 s p c i t m : dsane (ops ++ [DAt p (PHear i t)]) -> dreach ops s1 -> dreach (ops ++ [DAt p (PHear i t)]) s -> dfits s ->
  dsteady p (ops ++ [DAt p (PHear i t)]) -> runs s1 p c -> nth_error (dn_sent s1) i = Some m -> registers m -> minds c (sm_host m) (sm_pid m) ->
  exists a, told a m /\ knows s p a /\
    forall x d, client_of s1 p x c d -> cx_name d = ca_name a -> exists d' a', client_of s p x c d' /\ cx_name d' = cx_name d /\ counts d' a' /\ ca_key a' = ca_key a.
Proof.
  intros S1 R R' F ST (q & A & <-) N RG MI. destruct (heard_step _ _ _ _ _ _ _ _ S1 R R' F A N RG MI) as (SE & TO & ES & q' & A' & PS & AP).
  pose proof (reach_good _ _ R) as G. exists (attr_of m). split; [exact TO|]. destruct (apply_cases _ _ _ _ AP) as (r1 & IX & EQ & _ & _ & CL). split.
  - apply (knows_abs _ s p q' _ S1 ST R' F A'). exists t. pose proof (fits_prefix s [] s1) as FP. rewrite app_nil_r in FP.
    destruct (always_timely ops p (proj1 (proj1 (sane_app _ _) S1)) (steady_app _ _ _ ST) s1 R (FP ES F) q A) as [T1 _].
    unfold dsteady in ST. rewrite times_app, rising_app in ST. destruct ST as (_ & _ & ST). cbn in ST. rewrite Nat.eqb_refl in ST.
    assert (IN : Inv t (px_reg q)) by (apply T1; intros u I1; apply ST; [exact I1|left; reflexivity]).
    destruct (put_spec t t (attr_of m) (px_reg q) r1 IN ltac:(lia) IX) as [_ AB]; [rewrite (pg_time _ (G p q A)); unfold forget_after; lia|].
    rewrite EQ, AB, eqb_refl. reflexivity.
  - intros x d (q1 & A1 & _ & CD) NM. rewrite A in A1. injection A1 as <-.
    exists (cx_hear (ca_key (attr_of m)) (attr_of m) d). assert (CQ : px_cfg q' = px_cfg q) by (eapply cfg_step; [apply (G p q A)|exact PS]).
    assert (CX : aget x (px_cli q') = Some (cx_hear (ca_key (attr_of m)) (attr_of m) d)).
    { rewrite CL. rewrite (aget_mapv (fun d => if eqb (cx_name d) (ca_name (attr_of m)) then cx_hear (ca_key (attr_of m)) (attr_of m) d else d)), CD, NM, eqb_refl. reflexivity. }
    pose proof (proj1 (conj (fun R => R) Logic.I) CX) as _.
    assert (PT : forall k a, In (k, a) (cx_conn d) -> k = ca_key a).
    { intros k a I1. pose proof (fits_prefix s [] s1) as FP. rewrite app_nil_r in FP.
      apply (proj1 (proj2 (origin ops (proj1 (proj1 (sane_app _ _) S1)) s1 R (FP ES F) p q A) x d CD) k a I1). }
    unfold cx_hear in *. destruct (aget (ca_key (attr_of m)) (cx_conn d)) as [a'|] eqn:K.
    + apply aget_in in K. pose proof (PT _ _ K) as KE. exists a'. split; [exists q'; auto|]. split; [reflexivity|]. unfold counts. rewrite <- KE. auto.
    + exists (attr_of m). split; [exists q'; auto|]. split; [reflexivity|]. split; [|reflexivity]. unfold counts. cbn. apply aget_in, aget_aset_same.
Qed.

(** ** How long it stays known *)
Lemma proc_next o s s' p q : dn_step o s = Some s' -> aget p (dn_procs s) = Some q ->
  exists q', aget p (dn_procs s') = Some q' /\ ((q' = q /\ forall po, o <> DAt p po) \/ exists po out, o = DAt p po /\ px_step (dn_sent s) po q = Some (q', out)).
Proof.
  intros E A. destruct o as [p0 c0|p0 po]; cbn [dn_step] in E.
  - destruct (aget p0 (dn_procs s)) eqn:A0; injection E as <-; [exists q; split; [exact A|left; split; [reflexivity|discriminate]]|]. cbn. rewrite aget_aset_other by congruence.
    exists q. split; [exact A|left; split; [reflexivity|discriminate]].
  - destruct (aget p0 (dn_procs s)) as [q0|] eqn:A0; [|injection E as <-; exists q; split; [exact A|left; split; [reflexivity|intros po' X; injection X as -> _; congruence]]].
    destruct (px_step (dn_sent s) po q0) as [[q1 o1]|] eqn:PS; [|discriminate]. injection E as <-. cbn. rewrite aget_aset. destruct (eqb p p0) eqn:P.
    + apply eqb_true in P. subst p0. rewrite A in A0. injection A0 as <-. exists q1. split; [reflexivity|]. right. eauto.
    + apply eqb_false in P. exists q. split; [exact A|left; split; [reflexivity|intros po' X; injection X as -> _; congruence]].
Qed.
Lemma runs_next o s s' p c : ngood s -> dn_step o s = Some s' -> runs s p c -> runs s' p c.
Proof.
  intros G E (q & A & <-). destruct (proc_next o s s' p q E A) as (q' & A' & [[-> _]|(po & out & _ & PS)]); [exists q; auto|exists q'; split; [exact A'|]].
  eapply cfg_step; [apply (G p q A)|exact PS].
Qed.
Lemma runs_later ops1 s1 ops2 s p c : dreach ops1 s1 -> dreach (ops1 ++ ops2) s -> runs s1 p c -> runs s p c.
Proof.
  revert s. induction ops2 as [|o l IH] using rev_ind; intros s R1 R RU; [rewrite app_nil_r in R; rewrite (reach_fun _ _ _ R R1); exact RU|].
  rewrite app_assoc in R. apply reach_snoc in R. destruct R as (s2 & R2 & E). apply (runs_next o s2); [apply (reach_good _ _ R2)|exact E|apply IH; assumption].
Qed.
Lemma stays_abs ops1 s1 ops2 s p c i t m :
  dsane (ops1 ++ DAt p (PHear i t) :: ops2) -> dreach ops1 s1 -> dreach (ops1 ++ DAt p (PHear i t) :: ops2) s -> dfits s -> dsteady p (ops1 ++ DAt p (PHear i t) :: ops2) ->
  runs s1 p c -> nth_error (dn_sent s1) i = Some m -> registers m -> minds c (sm_host m) (sm_pid m) ->
  (forall j now m', In (DAt p (PHear j now)) ops2 -> nth_error (dn_sent s) j = Some m' -> registers m' -> minds c (sm_host m') (sm_pid m') -> (now - 5000 <= t)%Z) ->
  exists q a' tk, aget p (dn_procs s) = Some q /\ told (attr_of m) m /\ a_list (abs (px_reg q)) (ca_key (attr_of m)) = Some (a', tk) /\ (t <= tk)%Z.
Proof.
  revert s. induction ops2 as [|o ops2 IH] using rev_ind; intros s S1 R0 R F ST RU N RG MI LATE.
  - destruct RU as (q & A & <-). destruct (heard_step _ _ _ _ _ _ _ _ S1 R0 R F A N RG MI) as (SE & TO & ES & q' & A' & PS & AP).
    pose proof (reach_good _ _ R0) as G. destruct (apply_cases _ _ _ _ AP) as (r1 & IX & EQ & _ & _ & CL).
    exists q', (attr_of m), t. split; [exact A'|]. split; [exact TO|]. split; [|lia]. pose proof (fits_prefix s [] s1) as FP. rewrite app_nil_r in FP.
    destruct (always_timely ops1 p (proj1 (proj1 (sane_app _ _) S1)) (steady_app _ _ _ ST) s1 R0 (FP ES F) q A) as [T1 _].
    unfold dsteady in ST. rewrite times_app, rising_app in ST. destruct ST as (_ & _ & ST). cbn in ST. rewrite Nat.eqb_refl in ST.
    assert (IN : Inv t (px_reg q)) by (apply T1; intros u I1; apply ST; [exact I1|left; reflexivity]).
    destruct (put_spec t t (attr_of m) (px_reg q) r1 IN ltac:(lia) IX) as [_ AB]; [rewrite (pg_time _ (G p q A)); unfold forget_after; lia|].
    rewrite EQ, AB, eqb_refl. reflexivity.
  - replace (ops1 ++ DAt p (PHear i t) :: ops2 ++ [o]) with ((ops1 ++ DAt p (PHear i t) :: ops2) ++ [o]) in * by (rewrite <- app_assoc; reflexivity).
    set (ops := ops1 ++ DAt p (PHear i t) :: ops2) in *. apply sane_app in S1. destruct S1 as [S1 S2]. apply reach_snoc in R. destruct R as (s2 & R & E).
    destruct (sent_step _ _ _ E) as (out & ES). pose proof (fits_prefix _ _ _ ES F) as F1. pose proof (reach_good _ _ R) as G.
    destruct (IH s2 S1 R0 R F1 (steady_app _ _ _ ST) RU N RG MI) as (q & a' & tk & A & TO & K & LT).
    { intros j now m' I1 NJ. apply (LATE j now m'); [apply in_app_iff; auto|]. rewrite ES. apply nth_more, NJ. }
    destruct (proc_next o s2 s p q E A) as (q' & A' & [[-> _]|(po & out' & -> & PS)]); [exists q, a', tk; auto|].
    destruct (reg_step _ _ _ _ _ (G p q A) PS) as [[_ EQ]|(now & m' & r1 & SE & IX & EQ)]; [exists q', a', tk; rewrite EQ; auto|].
    assert (CQ : px_cfg q = c) by (destruct (runs_later ops1 s1 _ s2 p c R0 R RU) as (q0 & A0 & <-); congruence).
    destruct (sees_born ops s2 q po now m' S1 R F1 SE) as (j & -> & NJ & BJ & RJ & MJ).
    destruct (always_timely ops p S1 (steady_app _ _ _ ST) s2 R F1 q A) as [T1 T2].
    unfold dsteady in ST. rewrite times_app, rising_app in ST. destruct ST as (ST0 & _ & ST'). cbn in ST'. rewrite Nat.eqb_refl in ST'.
    assert (IN : Inv now (px_reg q)) by (apply T1; intros u I2; apply ST'; [exact I2|left; reflexivity]).
    destruct (put_spec now now (attr_of m') (px_reg q) r1 IN ltac:(lia) IX) as [_ AB]; [rewrite (pg_time _ (G p q A)); unfold forget_after; lia|]. rewrite <- EQ in AB.
    rewrite (pg_time _ (G p q A)) in AB. exists q'. specialize (AB (ca_key (attr_of m))). destruct (eqb (ca_key (attr_of m)) (ca_key (attr_of m'))) eqn:KK.
    + exists (attr_of m'), now. split; [exact A'|]. split; [exact TO|]. split; [exact AB|]. apply ST'; [|left; reflexivity].
      unfold ops. rewrite times_app. apply in_app_iff. right. cbn. rewrite Nat.eqb_refl. left. reflexivity.
    + exists a', tk. split; [exact A'|]. split; [exact TO|]. split; [|exact LT]. rewrite AB, K.
      assert (X : (now - 5000 <= t)%Z) by (apply (LATE j now m'); auto; [apply in_app_iff; right; left; reflexivity|rewrite ES; apply nth_more, NJ|rewrite <- CQ; exact MJ]).
      destruct (Z.ltb_spec tk (now - forget_after)) as [L|L]; [unfold forget_after in L; lia|reflexivity].
Qed.
Lemma stays_lemma ops1 s1 ops2 s p c i t m :
  dsane (ops1 ++ DAt p (PHear i t) :: ops2) -> dreach ops1 s1 -> dreach (ops1 ++ DAt p (PHear i t) :: ops2) s -> dfits s -> dsteady p (ops1 ++ DAt p (PHear i t) :: ops2) ->
  runs s1 p c -> nth_error (dn_sent s1) i = Some m -> registers m -> minds c (sm_host m) (sm_pid m) ->
  (forall j now m', In (DAt p (PHear j now)) ops2 -> nth_error (dn_sent s) j = Some m' -> registers m' -> minds c (sm_host m') (sm_pid m') -> (now - 5000 <= t)%Z) ->
  exists a a', told a m /\ knows s p a' /\ ca_key a' = ca_key a.
Proof.
  intros S1 R0 R F ST RU N RG MI LATE. destruct (stays_abs ops1 s1 ops2 s p c i t m S1 R0 R F ST RU N RG MI LATE) as (q & a' & tk & A & TO & K & LT).
  destruct (proj2 (always_timely _ p S1 ST s R F q A) _ _ _ K) as (_ & _ & _ & _ & _ & KE). exists (attr_of m), a'. split; [exact TO|]. split; [|congruence].
  apply (knows_abs _ s p q a' S1 ST R F A). exists tk. rewrite <- KE. exact K.
Qed.
Lemma silence_lemma ops s1 s p c i now m a : dsane (ops ++ [DAt p (PHear i now)]) -> dreach ops s1 -> dreach (ops ++ [DAt p (PHear i now)]) s -> dfits s ->
  dsteady p (ops ++ [DAt p (PHear i now)]) -> runs s1 p c -> nth_error (dn_sent s1) i = Some m -> registers m -> minds c (sm_host m) (sm_pid m) -> knows s p a ->
  exists j t m', In (DAt p (PHear j t)) (ops ++ [DAt p (PHear i now)]) /\ (now - 5000 <= t)%Z /\ nth_error (dn_sent s) j = Some m' /\ told a m'.
Proof.
  intros S1 R0 R F ST (q & A & <-) N RG MI KN. destruct (heard_step _ _ _ _ _ _ _ _ S1 R0 R F A N RG MI) as (SE & TO & ES & q' & A' & PS & AP).
  pose proof (reach_good _ _ R0) as G. destruct (apply_cases _ _ _ _ AP) as (r1 & IX & EQ & _ & _ & CL).
  apply (knows_abs _ s p q' a S1 ST R F A') in KN. destruct KN as (t & KN). destruct (proj2 (always_timely _ p S1 ST s R F q' A') _ _ _ KN) as (j & m' & X1 & X2 & X3 & _).
  exists j, t, m'. split; [exact X1|]. split; [|auto]. pose proof (fits_prefix s [] s1) as FP. rewrite app_nil_r in FP.
  destruct (always_timely ops p (proj1 (proj1 (sane_app _ _) S1)) (steady_app _ _ _ ST) s1 R0 (FP ES F) q A) as [T1 _].
  unfold dsteady in ST. rewrite times_app, rising_app in ST. destruct ST as (_ & _ & ST). cbn in ST. rewrite Nat.eqb_refl in ST.
  assert (IN : Inv now (px_reg q)) by (apply T1; intros u I1; apply ST; [exact I1|left; reflexivity]).
  destruct (put_spec now now (attr_of m) (px_reg q) r1 IN ltac:(lia) IX) as [_ AB]; [rewrite (pg_time _ (G p q A)); unfold forget_after; lia|].
  rewrite EQ, AB in KN. destruct (eqb (ca_key a) (ca_key (attr_of m))); [injection KN as _ <-; lia|]. destruct (a_list (abs (px_reg q)) (ca_key a)) as [[v tk]|]; [|discriminate].
  rewrite (pg_time _ (G p q A)) in KN. destruct (Z.ltb_spec tk (now - forget_after)); [discriminate|]. injection KN as _ <-. unfold forget_after in *. lia.
Qed.
(** Nothing but registrations changes the table. *)
Lemma kept_lemma ops1 s1 ops2 s p c : dreach ops1 s1 -> dreach (ops1 ++ ops2) s -> runs s1 p c -> (forall i t, ~ In (DAt p (PHear i t)) ops2) -> forall a, knows s p a <-> knows s1 p a.
Proof.
  revert s. induction ops2 as [|o l IH] using rev_ind; intros s R1 R RU NO a; [rewrite app_nil_r in R; rewrite (reach_fun _ _ _ R R1); tauto|].
  rewrite app_assoc in R. apply reach_snoc in R. destruct R as (s2 & R2 & E). rewrite <- (IH s2 R1 R2 RU) by (intros i t I1; apply (NO i t), in_app_iff; auto).
  destruct (runs_later ops1 s1 l s2 p c R1 R2 RU) as (q & A & _). destruct (proc_next o s2 s p q E A) as (q' & A' & D).
  assert (EQ : px_reg q' = px_reg q).
  { destruct D as [[-> _]|(po & out & -> & PS)]; [reflexivity|]. destruct (reg_step _ _ _ _ _ (reach_good _ _ R2 p q A) PS) as [[_ EQ]|(now & m & r1 & (k & m0 & -> & _) & _)]; [exact EQ|].
    exfalso. apply (NO k now), in_app_iff. right. left. reflexivity. }
  unfold knows. split; intros (q1 & B & I1).
  - rewrite A' in B. injection B as <-. exists q. rewrite <- EQ. auto.
  - rewrite A in B. injection B as <-. exists q'. rewrite EQ. auto.
Qed.
Lemma ignored_lemma ops s1 s p c i t m : dsane ops -> dreach ops s1 -> dreach (ops ++ [DAt p (PHear i t)]) s -> dfits s1 -> runs s1 p c -> nth_error (dn_sent s1) i = Some m ->
  ~ (registers m /\ minds c (sm_host m) (sm_pid m)) -> forall p', aget p' (dn_procs s) = aget p' (dn_procs s1).
Proof.
  intros S1 R R' F (q & A & <-) N NO p'. apply reach_snoc in R'. destruct R' as (s2 & R2 & E). rewrite (reach_fun _ _ _ R2 R) in E. cbn [dn_step] in E. rewrite A in E.
  destruct (hear_split (dn_sent s1) q i t (reach_good _ _ R p q A)) as [(m' & q' & SE & _)|[_ PS]].
  - destruct (sees_born ops s1 q _ t m' S1 R F SE) as (k & K & N' & _ & RG & MI). injection K as <-. rewrite N in N'. injection N' as <-. destruct (NO (conj RG MI)).
  - rewrite PS in E. injection E as <-. cbn. rewrite aget_aset. destruct (eqb p' p) eqn:P; [apply eqb_true in P; subst p'; congruence|reflexivity].
Qed.

(** ** Clients *)
Lemma client_step o s s' p x c d c' d' : ngood s -> dn_step o s = Some s' -> client_of s p x c d -> client_of s' p x c' d' ->
  c' = c /\ exists q, aget p (dn_procs s) = Some q /\ px_cfg q = c /\ (d' = d \/ exists po, o = DAt p po /\ cmove (dn_sent s) q x d po d').
Proof.
  intros G E (q & A & C & CD) (q' & A' & C' & CD'). destruct (proc_next o s s' p q E A) as (q1 & A1 & D). rewrite A' in A1. injection A1 as <-.
  destruct D as [[-> _]|(po & out & -> & PS)].
  - split; [congruence|]. exists q. split; [exact A|]. split; [exact C|]. left. congruence.
  - split; [rewrite <- C', <- C; eapply cfg_step; [apply (G p q A)|exact PS]|]. exists q. split; [exact A|]. split; [exact C|]. right. exists po. split; [reflexivity|].
    destruct (cli_step _ _ _ _ _ _ _ (G p q A) PS CD') as [(d0 & B & M)|(n & _ & _ & B)]; [|congruence]. rewrite CD in B. injection B as <-. exact M.
Qed.
Lemma collect_cli s s' p x c d c' d' : dn_step (DAt p PCollect) s = Some s' -> client_of s p x c d -> client_of s' p x c' d' ->
  exists q, aget p (dn_procs s) = Some q /\ d' = cx_check (cx_refresh (px_reg q) d).
Proof.
  intros E (q & A & _ & CD) (q2 & A2 & _ & CD2). cbn [dn_step px_step] in E. rewrite A in E. injection E as <-. cbn in A2. rewrite aget_aset_same in A2. injection A2 as <-.
  cbn in CD2. rewrite (aget_mapv (fun d => cx_check (cx_refresh (px_reg q) d))), CD in CD2. injection CD2 as <-. eauto.
Qed.
Lemma disconnects_lemma ops o s s' p x c d c' d' a : dreach ops s -> dreach (ops ++ [o]) s' -> client_of s p x c d -> client_of s' p x c' d' -> counts d a ->
  (counts d' a <-> ~ (o = DAt p PCollect /\ exists z, session d' (ca_key a) z /\ ss_failed z = true)).
Proof.
  intros R R' C1 C2 K. apply reach_snoc in R'. destruct R' as (s1 & R1 & E). rewrite (reach_fun _ _ _ R1 R) in E. pose proof (reach_good _ _ R) as G.
  assert (D : o = DAt p PCollect \/ o <> DAt p PCollect).
  { destruct o as [|p0 po]; [right; discriminate|]. destruct (Nat.eq_dec p0 p) as [->|N]; [|right; congruence]. destruct po; try (right; discriminate). left. reflexivity. }
  destruct D as [->|NO].
  - destruct (collect_cli _ _ _ _ _ _ _ _ E C1 C2) as (q & A & ->). unfold counts, session. cbn [cx_check cx_refresh cx_conn cx_ses]. fold (drop_all (cx_ses (cx_refresh (px_reg q) d)) (cx_conn d)).
    rewrite drop_in. split.
    + intros [_ X] [_ Y]. exact (X Y).
    + intros X. split; [exact K|]. intros Y. apply X. split; [reflexivity|exact Y].
  - split; [intros _ [X _]; exact (NO X)|]. intros _. destruct (client_step o s s' p x c d c' d' G E C1 C2) as (_ & q & A & _ & [->|(po & -> & M)]); [exact K|].
    inversion M; subst; try exact K; [congruence|]. unfold counts, cx_hear in *. destruct (aget _ (cx_conn d)) as [v|] eqn:KV; [exact K|]. cbn [cx_conn].
    apply aget_in. rewrite aget_aset. destruct (eqb (ca_key a) (ca_key (attr_of m))) eqn:KK.
    + apply eqb_true in KK. apply aget_none in KV. destruct KV. rewrite <- KK. unfold keys. apply in_map_iff. exists (ca_key a, a). auto.
    + assert (ND : NoDup (keys (cx_conn d))) by (destruct C1 as (q0 & A0 & _ & CD); apply (pg_each _ (G p q0 A0) x d), aget_in, CD).
      pose proof K as K'. apply in_aget in K'; [exact K'|exact ND].
Qed.
Lemma session_stays ops o s s' p x c d c' d' k z : dreach ops s -> dreach (ops ++ [o]) s' -> client_of s p x c d -> client_of s' p x c' d' -> session d k z ->
  exists z', session d' k z' /\ ss_proto z' = ss_proto z /\ ss_ends z' = ss_ends z /\ (ss_failed z = true -> ss_failed z' = true) /\
    (ss_failed z' = true -> ss_failed z = true \/ o = DAt p (PFail x k)).
Proof.
  intros R R' C1 C2 K. apply reach_snoc in R'. destruct R' as (s1 & R1 & E). rewrite (reach_fun _ _ _ R1 R) in E. pose proof (reach_good _ _ R) as G.
  assert (CG : cgood d) by (destruct C1 as (q0 & A0 & _ & CD); apply (pg_each _ (G p q0 A0) x d), aget_in, CD). pose proof (cg_ses _ CG) as ND.
  assert (SAME : session d' k z -> exists z', session d' k z' /\ ss_proto z' = ss_proto z /\ ss_ends z' = ss_ends z /\ (ss_failed z = true -> ss_failed z' = true) /\
    (ss_failed z' = true -> ss_failed z = true \/ o = DAt p (PFail x k))) by (intros X; exists z; auto 10).
  pose proof K as KA. unfold session in KA. apply in_aget in KA; [|exact ND].
  destruct (client_step o s s' p x c d c' d' G E C1 C2) as (_ & q & A & _ & [->|(po & -> & M)]); [auto|]. inversion M; subst; auto.
  - apply SAME. apply aget_in. cbn [cx_check cx_ses]. rewrite refresh_ses. apply open_keeps, KA.
  - apply SAME. apply aget_in. rewrite refresh_ses. apply open_keeps, KA.
  - destruct (eqb k k0) eqn:KK.
    + apply eqb_true in KK. subst k0. rewrite KA in H. injection H as <-. exists (DSes (ss_proto z) (ss_ends z) true). split; [apply aget_in; cbn; apply aget_aset_same|]. cbn. auto.
    + apply SAME. apply aget_in. cbn. rewrite aget_aset, KK. exact KA.
  - apply SAME. unfold cx_hear, session. destruct (aget _ (cx_conn d)); exact K.
Qed.
(** ** Calls *)
Lemma pin_any ops : forall s, dreach ops s -> forall p q, aget p (dn_procs s) = Some q -> pin (fun _ => True) q.
Proof.
  induction ops as [|o ops IH] using rev_ind; intros s R p q' A; [injection R as <-; discriminate|].
  apply reach_snoc in R. destruct R as (s1 & R & E). pose proof (reach_good _ _ R) as G.
  destruct (proc_step _ _ _ _ _ E A) as [[A1 _]|[(c & _ & [[_ ->]|A1])|(po & q & out1 & -> & A1 & PS & _)]]; [apply (IH s1 R p q' A1)| |apply (IH s1 R p q' A1)|].
  - split; [intros k a []|intros x d X; discriminate].
  - apply (pin_step (dn_sent s1) _ po q q' out1 (G p q A1) (IH s1 R p q A1)); [auto|exact PS].
Qed.
Lemma knows_named ops s p q a : dreach ops s -> aget p (dn_procs s) = Some q -> (knows s p a <-> exists k, In (k, a) (em_contents (px_reg q))).
Proof.
  intros R A. unfold knows. split.
  - intros (q0 & A0 & I1). rewrite A in A0. injection A0 as <-. eauto.
  - intros (k & I1). exists q. split; [exact A|]. destruct (proj1 (pin_any ops s R p q A) _ _ I1) as [-> _]. exact I1.
Qed.
Lemma targets_lemma ops s p x c d : dreach (ops ++ [DAt p (PCall x)]) s -> client_of s p x c d ->
  exists l, calls s p x l /\ (forall k z, In (k, z) l <-> session d k z /\ exists a, k = ca_key a /\ knows s p a /\ takes d a) /\
    (forall a, knows s p a -> takes d a -> exists z, In (ca_key a, z) l).
Proof.
  intros R (q & A & C & CD). pose proof R as R'. apply reach_snoc in R'. destruct R' as (s1 & R1 & E). pose proof (reach_good _ _ R p q A) as PG. pose proof (reach_good _ _ R1) as G1.
  exists (cx_targets (px_reg q) d). split; [exists q, d; auto|].
  assert (CG : cgood d) by (apply (pg_each _ PG x d), aget_in, CD).
  assert (T : forall a, knows s p a -> takes d a -> In a (named (cx_name d) (px_reg q)) /\ (is_nil (cx_host d) || eqb (cx_host d) (ca_host a))%bool = true).
  { intros a KN [T1 T2]. apply (knows_named _ s p q a R A) in KN. split; [apply named_in; auto|]. destruct T2 as [->| ->]; [reflexivity|]. rewrite eqb_refl. apply Bool.orb_true_r. }
  assert (W : forall k z, In (k, z) (cx_targets (px_reg q) d) <-> session d k z /\ exists a, k = ca_key a /\ knows s p a /\ takes d a).
  { intros k z. unfold cx_targets. rewrite in_flat_map. split.
    - intros (a & I1 & I2). destruct (is_nil (cx_host d) || eqb (cx_host d) (ca_host a))%bool eqn:HH; [|destruct I2]. destruct (aget (ca_key a) (cx_ses d)) as [z'|] eqn:Z1; [|destruct I2].
      destruct I2 as [I2|[]]. injection I2 as <- <-. split; [apply aget_in, Z1|]. exists a. split; [reflexivity|]. apply named_in in I1. destruct I1 as [N I1].
      split; [apply (knows_named _ s p q a R A), I1|]. split; [exact N|]. apply Bool.orb_prop in HH. destruct HH as [HH|HH]; [left; destruct (cx_host d); [reflexivity|discriminate]|right; apply eqb_true, HH].
    - intros (SE & a & -> & KN & TK). destruct (T a KN TK) as [I1 HH]. exists a. split; [exact I1|]. rewrite HH. unfold session in SE. apply in_aget in SE; [|apply CG]. rewrite SE. left. reflexivity. }
  split; [exact W|]. intros a KN TK. destruct (T a KN TK) as [I1 _].
  assert (Z1 : exists z, aget (ca_key a) (cx_ses d) = Some z).
  { cbn [dn_step px_step] in E. destruct (aget p (dn_procs s1)) as [q1|] eqn:A1; [|injection E as ->; congruence]. injection E as <-. cbn in A. rewrite aget_aset_same in A. injection A as <-.
    unfold on_cli in *. destruct (aget x (px_cli q1)) as [d1|] eqn:D1; [|congruence]. cbn in CD. rewrite aget_aset_same in CD. injection CD as <-. rewrite refresh_ses. apply open_has. exact I1. }
  destruct Z1 as (z & Z1). exists z. apply W. split; [apply aget_in, Z1|eauto].
Qed.
(** ** A server is found *)
Lemma client_next o s s' p x c d : ngood s -> dn_step o s = Some s' -> client_of s p x c d -> o <> DAt p (PGo x) -> (forall h, o <> DAt p (PHost x h)) ->
  exists d', client_of s' p x c d' /\ cx_name d' = cx_name d /\ cx_host d' = cx_host d.
Proof.
  intros G E CL NG NH. pose proof CL as (q & A & C & CD). destruct (proc_next o s s' p q E A) as (q' & A' & [[-> _]|(po & out & -> & PS)]).
  - exists d. split; [exists q; auto|auto].
  - destruct (cli_next _ _ _ _ _ x d (G p q A) PS CD) as (d' & CD'); [intros ->; apply NG; reflexivity|].
    assert (CL' : client_of s' p x c d') by (exists q'; split; [exact A'|]; split; [rewrite <- C; eapply cfg_step; [apply (G p q A)|exact PS]|exact CD']).
    exists d'. split; [exact CL'|]. destruct (client_step _ _ _ _ _ _ _ _ _ G E CL CL') as (_ & q1 & _ & _ & [->|(po' & X & M)]); [auto|]. injection X as <-.
    inversion M; subst; auto.
    + destruct (NH h). reflexivity.
    + unfold cx_hear. destruct (aget _ (cx_conn d)); auto.
Qed.
Lemma client_fun s p x c d c' d' : client_of s p x c d -> client_of s p x c' d' -> d' = d.
Proof. intros (q & A & _ & C) (q' & A' & _ & C'). congruence. Qed.
Lemma tells_facts c e m a : tells c e m -> told a m -> a = facts c e.
Proof.
  intros (_ & T1 & T2 & T3 & T4 & T5 & T6 & _ & T7 & T8 & T9) (_ & U1 & U2 & U3 & U4 & U5 & U6 & U7 & U8 & U9). destruct a. cbn in *. unfold facts. f_equal; congruence.
Qed.
Lemma finds_lemma ops s s1 p x c e q y c2 d : dsane ops -> dreach ops s -> server s p x c e -> listening c e -> client_of s q y c2 d -> takes d (facts c e) ->
  minds c2 (pc_host c) (pc_pid c) -> dsteady q ops -> dreach (ops ++ [DAt p PCollect]) s1 -> dfits s1 ->
  exists i m, length (dn_sent s) <= i /\ nth_error (dn_sent s1) i = Some m /\ tells c e m /\
    forall t s3, (forall u, In u (dtimes q ops) -> (u <= t)%Z) -> dreach (ops ++ [DAt p PCollect; DAt q (PHear i t); DAt q (PCall y)]) s3 ->
    knows s3 q (facts c e) /\
    exists d3 a z l, client_of s3 q y c2 d3 /\ counts d3 a /\ ca_key a = ca_key (facts c e) /\ calls s3 q y l /\ In (ca_key (facts c e), z) l /\
      (one_of_its_kind (ops ++ [DAt p PCollect; DAt q (PHear i t); DAt q (PCall y)]) c2 (facts c e) ->
       exists pt proto, leads z (pc_host c) pt proto /\ best (facts c e) pt proto).
Proof.
  intros S1 R SV L CL [TN TH] MI ST R1 F1. destruct (cycle_lemma ops s s1 p x c e S1 R SV R1) as (i & m & LE & N & _ & [[_ T]|[NL _]]); [|destruct (NL L)].
  exists i, m. split; [exact LE|]. split; [exact N|]. split; [exact T|]. intros t s3 LATE R3.
  set (o2 := ops ++ [DAt p PCollect]) in *. set (o3 := o2 ++ [DAt q (PHear i t)]) in *.
  assert (EQ : ops ++ [DAt p PCollect; DAt q (PHear i t); DAt q (PCall y)] = o3 ++ [DAt q (PCall y)]) by (unfold o3, o2; rewrite <- !app_assoc; reflexivity).
  rewrite EQ in *. clear EQ. pose proof R3 as R3'. apply reach_snoc in R3'. destruct R3' as (s2 & R2 & E3). pose proof R2 as R2'. unfold o3 in R2'. apply reach_snoc in R2'.
  destruct R2' as (s1' & R1' & E2). rewrite (reach_fun _ _ _ R1' R1) in E2. clear R1' s1'. pose proof R1 as R1'. apply reach_snoc in R1'. destruct R1' as (s0 & R0 & E1). rewrite (reach_fun _ _ _ R0 R) in E1. clear R0 s0.
  destruct (client_next _ _ _ _ _ _ _ (reach_good _ _ R) E1 CL ltac:(discriminate) ltac:(discriminate)) as (d1 & CL1 & N1 & H1).
  destruct (client_next _ _ _ _ _ _ _ (reach_good _ _ R1) E2 CL1 ltac:(discriminate) ltac:(discriminate)) as (d2 & CL2 & N2 & H2).
  destruct (client_next _ _ _ _ _ _ _ (reach_good _ _ R2) E3 CL2 ltac:(discriminate) ltac:(discriminate)) as (d3 & CL3 & N3 & H3).
  assert (S2 : dsane o3) by (unfold o3, o2; rewrite <- app_assoc; apply sane_app; split; [exact S1|constructor; [exact Logic.I|constructor; [exact Logic.I|constructor]]]).
  pose proof T as (RG & _ & T2 & T3 & _).
  assert (ES : dn_sent s2 = dn_sent s1).
  { cbn [dn_step] in E2. pose proof CL1 as (q1 & A1 & _). rewrite A1 in E2. destruct (hear_split (dn_sent s1) q1 i t (reach_good _ _ R1 q q1 A1)) as [(m' & q' & _ & _ & PS & _)|[_ PS]]; rewrite PS in E2; injection E2 as <-; cbn; apply app_nil_r. }
  assert (F2 : dfits s2) by (unfold dfits; rewrite ES; exact F1).
  assert (ST2 : dsteady q o3).
  { unfold o3, o2, dsteady. rewrite !times_app. cbn. rewrite Nat.eqb_refl, app_nil_r. apply rising_app. split; [exact ST|]. split; [cbn; split; [intros u []|exact Logic.I]|]. intros u v I1 I2. cbn in I2. destruct I2 as [<-|[]]. auto. }
  assert (RU : runs s1 q c2) by (destruct CL1 as (q1 & A1 & C1 & _); exists q1; auto).
  destruct (heard_lemma o2 s1 s2 q c2 i t m S2 R1 R2 F2 ST2 RU N RG ltac:(rewrite T2, T3; exact MI)) as (a & TO & KN & CO).
  pose proof (tells_facts _ _ _ _ T TO) as ->. destruct (CO y d1 CL1) as (d2' & a & CL2' & _ & CN & KE); [rewrite N1; symmetry; exact TN|].
  rewrite (client_fun _ _ _ _ _ _ _ CL2 CL2') in CN. clear CL2' d2'.
  assert (KN3 : knows s3 q (facts c e)).
  { apply (kept_lemma o3 s2 [DAt q (PCall y)] s3 q c2 R2 R3); [destruct CL2 as (q1 & A1 & C1 & _); exists q1; auto| |exact KN]. intros j u [X|[]]. discriminate. }
  split; [exact KN3|]. assert (TK3 : takes d3 (facts c e)) by (split; [congruence|]; rewrite H3, H2, H1; exact TH).
  destruct (targets_lemma o3 s3 q y c2 d3 R3 CL3) as (l & LC & LI & LA). destruct (LA _ KN3 TK3) as (z & Z1). exists d3, a, z, l.
  split; [exact CL3|]. split; [apply (disconnects_lemma o3 _ s2 s3 q y c2 d2 c2 d3 a R2 R3 CL2 CL3 CN); intros [X _]; discriminate|]. split; [exact KE|]. split; [exact LC|]. split; [exact Z1|].
  intros ONE. apply LI in Z1. destruct Z1 as [Z1 _].
  assert (S3 : dsane (o3 ++ [DAt q (PCall y)])) by (apply sane_app; split; [exact S2|constructor; [exact Logic.I|constructor]]).
  assert (F3 : dfits s3).
  { unfold dfits. cbn [dn_step px_step] in E3. destruct CL2 as (q1 & A1 & _). rewrite A1 in E3. injection E3 as <-. cbn. rewrite app_nil_r, ES. exact F1. }
  destruct (session_lemma _ s3 q y c2 d3 _ z S3 R3 F3 CL3 Z1) as (b & pt & proto & KB & _ & RB & LB & BB). destruct (ONE b RB (eq_sym KB)) as (X1 & X2 & X3 & X4).
  exists pt, proto. split; [rewrite X1 in LB; exact LB|]. unfold best in *. rewrite X2, X3, X4 in BB. exact BB.
Qed.
(** ** Identities *)
Lemma split_last (c : Z) (x y x' y' : text) : x ++ c :: y = x' ++ c :: y' -> ~ In c y -> ~ In c y' -> x = x' /\ y = y'.
Proof.
  revert x'. induction x as [|h x IH]; intros [|h' x'] E N N'; cbn in E.
  - injection E as ->. auto.
  - injection E as E1 E2. destruct N. rewrite E2. apply in_app_iff. right. left. reflexivity.
  - injection E as E1 E2. destruct N'. rewrite <- E2. apply in_app_iff. right. left. reflexivity.
  - injection E as E1 E2. destruct (IH _ E2 N N') as [-> ->]. rewrite E1. auto.
Qed.
Lemma digits_no_at z : (0 <= z < 2 ^ 31)%Z -> ~ In at_sign (MonModel.int_text z).
Proof.
  intros B I1. destruct (MonProofs.int_text_spec z) as (D & _); [lia|]. unfold MonSpec.digits_only in D. rewrite Forall_forall in D. specialize (D _ I1). unfold at_sign in D. lia.
Qed.
Lemma key_lemma a b : plain a -> plain b -> ca_key a = ca_key b -> same_service a b.
Proof.
  intros (A1 & A2 & A3) (B1 & B2 & B3) E. unfold ca_key in E. change (str ":") with [colon] in E. change (str "@") with [at_sign] in E. cbn [app] in E.
  assert (R : forall n i p h : text, n ++ colon :: i ++ at_sign :: p ++ at_sign :: h = ((n ++ colon :: i) ++ at_sign :: p) ++ at_sign :: h).
  { intros. repeat (rewrite <- app_assoc; cbn [app]). reflexivity. }
  rewrite !R in E. apply split_last in E; [|assumption|assumption]. destruct E as [E H]. apply split_last in E; [|apply digits_no_at; assumption|apply digits_no_at; assumption].
  destruct E as [E P]. apply split_last in E; [|assumption|assumption]. destruct E as [N D]. repeat split; auto. apply MonProofs.int_text_inj; [lia|lia|exact P].
Qed.

(** ** Examples and counterexamples *)
Lemma d_srv_sane p0 p1 : port p0 -> port p1 -> Forall wf_method (sv_methods (d_srv p0 p1)) /\ u32 (sv_version (d_srv p0 p1)) /\ port (sv_port0 (d_srv p0 p1)) /\ port (sv_port1 (d_srv p0 p1)).
Proof. intros P0 P1. repeat split; cbn; try constructor; try apply P0; try apply P1; lia. Qed.
Ltac sane_run := repeat (apply Forall_cons; [first [exact Logic.I | apply d_srv_sane; unfold port; lia | unfold dsane_op, i32; cbn; lia]|]); apply Forall_nil.
Lemma examples_sane : Forall dsane [d_found; d_gone; d_slow; d_lost; d_group; d_self; d_mute; d_late; d_first ++ d_second].
Proof. repeat (apply Forall_cons; [unfold dsane; unfold d_found, d_gone, d_slow, d_lost, d_group, d_self, d_mute, d_late, d_first, d_second, d_setup; unfold d_found, d_setup; cbn [app]; sane_run|]). apply Forall_nil. Qed.
Lemma withdrawn_lemma : exists s d z, dreach d_gone s /\ (forall p x c e, ~ server s p x c e) /\
  (exists m, nth_error (dn_sent s) 1 = Some m /\ sm_cmd m = bct_unreg_service /\ sm_entity m = str "100" /\ In (DAt 2 (PHear 1 2000)) d_gone) /\
  knows s 2 (d_fact (str "100") 11 (str "h1") 4000 4001) /\ client_of s 2 0 d_cb d /\ cx_connected d = true /\ calls s 2 0 [(ca_key (d_fact (str "100") 11 (str "h1") 4000 4001), z)].
Proof.
  eexists. eexists. eexists. split; [vm_compute; reflexivity|]. split.
  { intros p x c e (q & A & _ & X). cbn in A. repeat (destruct p as [|p]; try discriminate); injection A as <-; discriminate. }
  split; [eexists; split; [reflexivity|]; split; [reflexivity|]; split; [reflexivity|]; vm_compute; tauto|].
  split; [eexists; split; [reflexivity|vm_compute; tauto]|]. split; [eexists; split; [reflexivity|]; split; reflexivity|]. split; [reflexivity|].
  eexists. eexists. split; [reflexivity|]. split; [reflexivity|]. vm_compute. reflexivity.
Qed.
Lemma knows_in s p q a : aget p (dn_procs s) = Some q -> knows s p a -> In a (map snd (em_contents (px_reg q))).
Proof. intros A (q' & A' & I1). rewrite A in A'. injection A' as <-. apply in_map_iff. exists (ca_key a, a). auto. Qed.
Lemma slow_lemma : exists s e, dreach d_slow s /\ server s 3 0 d_cc e /\ listening d_cc e /\
  (forall i, i < length (dn_sent s) -> exists t, In (DAt 2 (PHear i t)) d_slow) /\ forall a, knows s 2 a -> ca_id a <> sx_id e.
Proof.
  eexists. eexists. split; [vm_compute; reflexivity|]. split; [eexists; split; [reflexivity|]; split; reflexivity|].
  split; [split; intros _; discriminate|]. split.
  - intros i L. cbn in L. destruct i as [|[|[|i]]]; [exists 0%Z|exists 500%Z|exists 6000%Z|lia]; unfold d_slow, d_setup; cbn [app In]; tauto.
  - intros a KN. eapply knows_in in KN; [|reflexivity]. cbn in KN. destruct KN as [<-|[]]. discriminate.
Qed.
Lemma lost_lemma : exists s d, dreach d_lost s /\ client_of s 2 0 d_cb d /\ cx_connected d = true /\ calls s 2 0 [] /\ (forall k z, ~ session d k z) /\
  (forall a, knows s 2 a -> ca_name a <> cx_name d) /\ forall p x c e, server s p x c e -> sx_name e <> cx_name d.
Proof.
  eexists. eexists. split; [vm_compute; reflexivity|]. split; [eexists; split; [reflexivity|]; split; reflexivity|]. split; [reflexivity|].
  split; [eexists; eexists; split; [reflexivity|]; split; [reflexivity|vm_compute; reflexivity]|]. split; [intros k z []|]. split.
  - intros a KN. eapply knows_in in KN; [|reflexivity]. cbn in KN. destruct KN as [<-|[]]. discriminate.
  - intros p x c e (q & A & _ & X). cbn in A. repeat (destruct p as [|p]; try discriminate); injection A as <-; cbn in X; repeat (destruct x as [|x]; try discriminate). injection X as <-. discriminate.
Qed.
Lemma group_lemma : exists s e, dreach d_group s /\ server s 1 0 d_g1 e /\ listening d_g1 e /\ pc_host d_g2 = pc_host d_g1 /\ pc_group d_g2 = pc_group d_g1 /\
  (exists m, nth_error (dn_sent s) 0 = Some m /\ tells d_g1 e m /\ In (DAt 2 (PHear 0 1)) d_group) /\ (forall a, ~ knows s 2 a) /\ calls s 2 0 [].
Proof.
  eexists. eexists. split; [vm_compute; reflexivity|]. split; [eexists; split; [reflexivity|]; split; reflexivity|].
  split; [split; intros _; discriminate|]. split; [reflexivity|]. split; [reflexivity|].
  split; [eexists; split; [reflexivity|]; split; [repeat split|unfold d_group; cbn [In]; tauto]|]. split.
  - intros a KN. eapply knows_in in KN; [|reflexivity]. destruct KN.
  - eexists. eexists. split; [reflexivity|]. split; [reflexivity|]. vm_compute. reflexivity.
Qed.
Lemma self_lemma : exists s e z, dreach d_self s /\ server s 1 0 d_g3 e /\ pc_loopback d_g3 = false /\ knows s 1 (facts d_g3 e) /\ calls s 1 0 [(ca_key (facts d_g3 e), z)].
Proof.
  eexists. eexists. eexists. split; [vm_compute; reflexivity|]. split; [eexists; split; [reflexivity|]; split; reflexivity|]. split; [reflexivity|].
  split; [eexists; split; [reflexivity|vm_compute; tauto]|]. eexists. eexists. split; [reflexivity|]. split; [reflexivity|]. vm_compute. reflexivity.
Qed.
Lemma mute_lemma : exists s e, dreach d_mute s /\ server s 1 0 d_ca e /\ sv_port0 (sx_rest e) <> 0%Z /\ knows s 2 nobody /\ calls s 2 0 [].
Proof.
  eexists. eexists. split; [vm_compute; reflexivity|]. split; [eexists; split; [reflexivity|]; split; reflexivity|]. split; [discriminate|].
  split; [eexists; split; [reflexivity|vm_compute; tauto]|]. eexists. eexists. split; [reflexivity|]. split; [reflexivity|]. vm_compute. reflexivity.
Qed.
Lemma late_lemma : exists s d a z, dreach d_late s /\ client_of s 2 0 d_cb d /\ knows s 2 a /\ calls s 2 0 [(ca_key a, z)] /\ cx_connected d = false.
Proof.
  eexists. eexists. exists (d_fact (str "100") 11 (str "h1") 4000 4001). eexists. split; [vm_compute; reflexivity|]. split; [eexists; split; [reflexivity|]; split; reflexivity|].
  split; [eexists; split; [reflexivity|vm_compute; tauto]|]. split; [|reflexivity]. eexists. eexists. split; [reflexivity|]. split; [reflexivity|]. vm_compute. reflexivity.
Qed.
