(** Lemmas about the description gate. *)
From Verif Require Import Base Sample ExpMapModel ExpMapSpec ExpMapProofs DscModel DscSpec.
From Coq Require Import Permutation Sorted.

(** ** Numbers *)
Lemma is_digit_spec c : is_digit c = true <-> digit c.
Proof. unfold is_digit, digit. rewrite andb_true_iff, !Z.leb_le. tauto. Qed.
Lemma is_digit_false c : is_digit c = false <-> ~ digit c.
Proof. rewrite <- is_digit_spec. destruct (is_digit c); intuition congruence. Qed.
Lemma is_space_spec c : is_space c = true <-> blank c.
Proof. unfold is_space, blank. rewrite orb_true_iff, andb_true_iff, Z.eqb_eq, !Z.leb_le. tauto. Qed.

Lemma skip_space_split s : exists bs, s = bs ++ skip_space s /\ Forall blank bs /\
  match skip_space s with [] => True | c :: _ => ~ blank c end.
Proof.
  induction s as [|c r IH]; cbn.
  - exists []; repeat split; constructor.
  - destruct (is_space c) eqn:E.
    + destruct IH as (bs & E1 & F & H). exists (c :: bs). cbn. rewrite <- E1. repeat split; auto.
      constructor; auto. apply is_space_spec; assumption.
    + exists []. repeat split; [constructor|]. rewrite <- is_space_spec. congruence.
Qed.
Lemma skip_space_app bs x : Forall blank bs -> match x with [] => True | c :: _ => ~ blank c end ->
  skip_space (bs ++ x) = x.
Proof.
  intros F H. induction F as [|b bs Hb F IH]; cbn.
  - destruct x as [|c r]; [reflexivity|]. cbn. rewrite <- is_space_spec in H. destruct (is_space c); [congruence|reflexivity].
  - apply is_space_spec in Hb. rewrite Hb. exact IH.
Qed.

Definition dfold (acc : Z) (ds : text) : Z := fold_left (fun n c => n * 10 + (c - 48))%Z ds acc.
Lemma read_digits_split s : forall acc, exists ds rest, s = ds ++ rest /\ Forall digit ds /\
  (match rest with [] => True | c :: _ => ~ digit c end) /\ read_digits acc s = dfold acc ds /\
  (match s with c :: _ => digit c -> ds <> [] | [] => True end).
Proof.
  induction s as [|c r IH]; intros acc; cbn.
  - exists [], []; repeat split; constructor.
  - destruct (is_digit c) eqn:E.
    + destruct (IH (acc * 10 + (c - 48))%Z) as (ds & rest & E1 & F & H & R & _).
      exists (c :: ds), rest. cbn. rewrite <- E1. repeat split; auto; [|discriminate].
      constructor; auto. apply is_digit_spec; assumption.
    + exists [], (c :: r). apply is_digit_false in E. repeat split; auto; try constructor.
Qed.
Lemma read_digits_app ds rest : Forall digit ds -> match rest with [] => True | c :: _ => ~ digit c end ->
  forall acc, read_digits acc (ds ++ rest) = dfold acc ds.
Proof.
  intros F H. induction F as [|d ds Hd F IH]; intros acc; cbn.
  - destruct rest as [|c r]; [reflexivity|]. cbn. apply is_digit_false in H. rewrite H. reflexivity.
  - apply is_digit_spec in Hd. rewrite Hd. apply IH.
Qed.

Lemma decimal_dfold ds : decimal ds = dfold 0 ds.
Proof. reflexivity. Qed.

(** The part after blanks and sign. *)
Definition unsigned (neg : bool) (s2 : text) : parsed :=
  match s2 with
  | c :: _ =>
      if is_digit c then
        let v := read_digits 0 s2 in
        if (v <? two64)%Z then PVal (if neg then (- v) mod two64 else v)%Z else PRange
      else PInvalid
  | [] => PInvalid
  end.
Definition sign_split (s1 : text) : bool * text :=
  match s1 with
  | 45%Z :: r => (true, r)
  | 43%Z :: r => (false, r)
  | _ => (false, s1)
  end.
Lemma stoull_unfold s : stoull s = unsigned (fst (sign_split (skip_space s))) (snd (sign_split (skip_space s))).
Proof.
  unfold stoull. fold (sign_split (skip_space s)).
  destruct (sign_split (skip_space s)); reflexivity.
Qed.
Lemma sign_split_cases s :
  (exists r, s = 45%Z :: r /\ sign_split s = (true, r)) \/
  (exists r, s = 43%Z :: r /\ sign_split s = (false, r)) \/
  ((match s with c :: _ => c <> 45%Z /\ c <> 43%Z | [] => True end) /\ sign_split s = (false, s)).
Proof.
  destruct s as [|c r]; [right; right; auto|].
  destruct (Z.eq_dec c 45) as [->|N1]; [left; eauto|].
  destruct (Z.eq_dec c 43) as [->|N2]; [right; left; eauto|].
  right; right. split; [auto|].
  unfold sign_split. destruct c as [|p|p]; try reflexivity.
  do 6 (try (destruct p as [p|p|]; try reflexivity)); congruence.
Qed.

Lemma unsigned_val neg s n : unsigned neg s = PVal n -> exists ds rest, s = ds ++ rest /\ ds <> [] /\ Forall digit ds /\
  (match rest with [] => True | c :: _ => ~ digit c end) /\ (decimal ds <= max64)%Z /\
  n = (if neg then (- decimal ds) mod (max64 + 1) else decimal ds)%Z.
Proof.
  unfold unsigned. intros U. destruct s as [|c r]; [discriminate|].
  destruct (is_digit c) eqn:E; [|discriminate]. apply is_digit_spec in E.
  destruct (read_digits_split (c :: r) 0) as (ds & rest & E1 & F & H & R & N).
  rewrite R in U. cbv zeta in U. destruct (dfold 0 ds <? two64)%Z eqn:L; [|discriminate].
  exists ds, rest. rewrite decimal_dfold. apply Z.ltb_lt in L.
  change two64 with (max64 + 1)%Z in *.
  repeat split; auto; [lia|congruence].
Qed.
Lemma unsigned_of neg ds rest : ds <> [] -> Forall digit ds -> (match rest with [] => True | c :: _ => ~ digit c end) ->
  unsigned neg (ds ++ rest) = if (decimal ds <=? max64)%Z then PVal (if neg then (- decimal ds) mod (max64 + 1) else decimal ds)%Z else PRange.
Proof.
  intros N F H. pose proof (read_digits_app ds rest F H 0) as R.
  destruct ds as [|d ds]; [congruence|]. unfold unsigned. cbn [app] in *. cbv zeta. rewrite R.
  assert (is_digit d = true) as -> by (apply is_digit_spec; inversion F; assumption).
  change (decimal (d :: ds)) with (dfold 0 (d :: ds)). change two64 with (max64 + 1)%Z.
  destruct (Z.ltb_spec (dfold 0 (d :: ds)) (max64 + 1)); destruct (Z.leb_spec (dfold 0 (d :: ds)) max64); auto; lia.
Qed.

Lemma digit_not_blank c : digit c -> ~ blank c.
Proof. unfold digit, blank. lia. Qed.

(** Text of the shape blanks, sign, digits, rest. *)
Lemma stoull_shape bs sign ds rest : Forall blank bs -> (sign = [] \/ sign = [43%Z] \/ sign = [45%Z]) ->
  ds <> [] -> Forall digit ds -> (match rest with [] => True | c :: _ => ~ digit c end) ->
  stoull (bs ++ sign ++ ds ++ rest) =
  if (decimal ds <=? max64)%Z then PVal (if eqb sign [45%Z] then (- decimal ds) mod (max64 + 1) else decimal ds)%Z else PRange.
Proof.
  intros B S N F H. rewrite stoull_unfold.
  rewrite skip_space_app; auto.
  - destruct S as [-> | [-> | -> ]].
    + cbn [app]. destruct (sign_split_cases (ds ++ rest)) as [(r & E & _)|[(r & E & _)|[_ ->]]].
      * destruct ds as [|d ds]; [congruence|]. injection E as -> _. inversion F; subst. unfold digit in *; lia.
      * destruct ds as [|d ds]; [congruence|]. injection E as -> _. inversion F; subst. unfold digit in *; lia.
      * cbn [fst snd]. rewrite unsigned_of; auto.
    + cbn [app]. change (sign_split (43%Z :: ds ++ rest)) with (false, ds ++ rest). cbn [fst snd]. rewrite unsigned_of; auto.
    + cbn [app]. change (sign_split (45%Z :: ds ++ rest)) with (true, ds ++ rest). cbn [fst snd]. rewrite unsigned_of; auto.
  - destruct S as [-> | [-> | -> ]]; cbn.
    + destruct ds as [|d ds]; [congruence|]. cbn. inversion F; subst. apply digit_not_blank; assumption.
    + unfold blank; lia.
    + unfold blank; lia.
Qed.

Lemma stoull_reads e n : stoull e = PVal n <-> reads e n.
Proof.
  split.
  - intros E. rewrite stoull_unfold in E.
    destruct (skip_space_split e) as (bs & E1 & B & NB).
    remember (skip_space e) as s1 eqn:E2. clear E2.
    destruct (sign_split_cases s1) as [(r & -> & Q)|[(r & -> & Q)|[C Q]]]; rewrite Q in E; cbn [fst snd] in E;
      destruct (unsigned_val _ _ _ E) as (ds & rest & -> & N & F & H & L & En).
    + exists bs, [45%Z], ds, rest. cbn [app]. repeat split; auto.
    + exists bs, [43%Z], ds, rest. cbn [app]. repeat split; auto.
    + exists bs, [], ds, rest. cbn [app]. repeat split; auto.
  - intros (bs & sign & ds & rest & -> & B & S & N & F & H & L & ->).
    rewrite stoull_shape; auto. apply Z.leb_le in L. rewrite L. reflexivity.
Qed.
Lemma reads_fun e n n' : reads e n -> reads e n' -> n = n'.
Proof. rewrite <- !stoull_reads. congruence. Qed.

Lemma dfold_snoc ds c acc : dfold acc (ds ++ [c]) = (dfold acc ds * 10 + (c - 48))%Z.
Proof. unfold dfold. rewrite fold_left_app. reflexivity. Qed.
Lemma dfold_bound ds : Forall digit ds -> (0 <= dfold 0 ds)%Z.
Proof.
  induction ds as [|c ds IH] using rev_ind; intros F; [cbn; lia|].
  apply Forall_app in F as [F1 F2]. inversion F2; subst. rewrite dfold_snoc. specialize (IH F1). unfold digit in *. lia.
Qed.
Lemma dfold_pos d ds : Forall digit (d :: ds) -> d <> 48%Z -> (0 < dfold 0 (d :: ds))%Z.
Proof.
  intros F N. inversion F as [|? ? Hd Fd]; subst. clear F.
  assert (forall l acc, Forall digit l -> (0 < acc)%Z -> (0 < dfold acc l)%Z) as G.
  { induction l as [|c l IH]; cbn; intros acc Fl Ha; [assumption|]. inversion Fl; subst. apply IH; auto. unfold digit in *; lia. }
  cbn. apply G; auto. unfold digit in *; lia.
Qed.

(** Digit sequences without leading zeros are determined by their value. *)
Definition nolead (e : text) : Prop := match e with c :: _ => c <> 48%Z | [] => True end.
Lemma dfold_inj : forall a b, Forall digit a -> Forall digit b -> nolead a -> nolead b -> dfold 0 a = dfold 0 b -> a = b.
Proof.
  induction a as [|c a IH] using rev_ind; intros b Fa Fb Na Nb E.
  - destruct b as [|d b]; [reflexivity|]. exfalso. pose proof (dfold_pos d b Fb Nb). cbn [dfold fold_left] in E. unfold dfold in *. cbn [fold_left] in *. lia.
  - destruct b as [|d b _] using rev_ind.
    + exfalso. destruct a as [|d a]; cbn [app] in *.
      * pose proof (dfold_pos c [] Fa Na). unfold dfold in *; cbn [fold_left] in *; lia.
      * pose proof (dfold_pos d (a ++ [c]) Fa Na). unfold dfold in *; cbn [fold_left] in *; lia.
    + rewrite !dfold_snoc in E.
      apply Forall_app in Fa as [Fa Fc]. apply Forall_app in Fb as [Fb Fd].
      inversion Fc as [|? ? Hc _]; inversion Fd as [|? ? Hd _]; subst. unfold digit in *.
      assert (c = d /\ dfold 0 a = dfold 0 b) as [-> E2] by lia.
      f_equal. apply IH; auto.
      * destruct a; cbn in *; auto.
      * destruct b; cbn in *; auto.
Qed.
Lemma plain_reads e : plain e -> reads e (decimal e).
Proof.
  intros (N & F & L & _). exists [], [], e, []. cbn [app]. rewrite app_nil_r. repeat split; auto.
Qed.
Lemma decimal_inj a b : plain a -> plain b -> decimal a = decimal b -> a = b.
Proof.
  intros (Na & Fa & La & Za) (Nb & Fb & Lb & Zb) E. change (dfold 0 a = dfold 0 b) in E.
  assert (forall x, x <> [] -> (match x with 48%Z :: r => r = [] | _ => True end) -> nolead x \/ x = [48%Z]) as C.
  { intros x Nx Zx. destruct x as [|c r]; [congruence|]. destruct (Z.eq_dec c 48) as [->|]; [right; subst; reflexivity|left; assumption]. }
  destruct (C a Na Za) as [Ca|Ca]; destruct (C b Nb Zb) as [Cb|Cb].
  - apply dfold_inj; assumption.
  - subst b. destruct a as [|d a]; [congruence|]. pose proof (dfold_pos d a Fa Ca). change (dfold 0 [48%Z]) with 0%Z in E. lia.
  - subst a. destruct b as [|d b]; [congruence|]. pose proof (dfold_pos d b Fb Cb). change (dfold 0 [48%Z]) with 0%Z in E. lia.
  - congruence.
Qed.
Lemma plain_same a b n : plain a -> plain b -> reads a n -> reads b n -> a = b.
Proof.
  intros Pa Pb Ra Rb. apply decimal_inj; auto.
  rewrite <- (reads_fun _ _ _ Ra (plain_reads a Pa)). exact (reads_fun _ _ _ Rb (plain_reads b Pb)).
Qed.

(** ** One expiring map *)
Section Tracks.
  Context {K V : Type} `{EqDec K}.
  Notation view := (K -> option (V * Z)).

  (** The map holds what [f] says, apart from entries already over the timeout at [t]. *)
  Record tracks (timeout t : Z) (m : emap K V) (f : view) : Prop := {
    tr_inv : Inv t m;
    tr_to : e_timeout m = timeout;
    tr_at : forall k, f k = a_list (abs m) k \/
                      (a_list (abs m) k = None /\ exists v ts, f k = Some (v, ts) /\ (ts < t - timeout)%Z) }.

  Lemma tracks_new timeout t : tracks timeout t (em_new timeout) (fun _ => None).
  Proof. constructor; [apply inv_new|reflexivity|]. intros k. left; reflexivity. Qed.
  Lemma tracks_ext timeout t m f f' : (forall k, f k = f' k) -> tracks timeout t m f -> tracks timeout t m f'.
  Proof. intros E [I T A]. constructor; auto. intros k. rewrite <- E. apply A. Qed.
  Lemma tracks_later timeout t t' m f : (t <= t')%Z -> tracks timeout t m f -> tracks timeout t' m f.
  Proof.
    intros L [I T A]. constructor; auto; [eapply inv_weaken; eauto|].
    intros k. destruct (A k) as [E|(E & v & ts & E2 & L2)]; [auto|]. right. split; auto. exists v, ts. split; auto. lia.
  Qed.

  Definition fresh (timeout now : Z) (f : view) : view :=
    fun k => match f k with Some (v, ts) => if (ts <? now - timeout)%Z then None else Some (v, ts) | None => None end.
  Lemma tracks_expire (dflt : V) timeout t now m f : (t <= now)%Z -> tracks timeout t m f ->
    tracks timeout now (fst (em_erase_expired now m)) f /\
    (forall k, a_list (abs (fst (em_erase_expired now m))) k = fresh timeout now f k).
  Proof.
    intros L [I T A].
    destruct (inv_step dflt (OExpire now) t m I) as (m' & R & I' & (Al & At)); [discriminate|exact L|].
    cbn in R. injection R as <-. cbn in I', Al, At.
    assert (forall k, a_list (abs (fst (em_erase_expired now m))) k = fresh timeout now f k) as Q.
    { intros k. cbn. rewrite Al. unfold fresh. cbn [abs a_list] in A. rewrite T.
      destruct (A k) as [E|(E & v & ts & E2 & L2)].
      - rewrite E. reflexivity.
      - rewrite E, E2. destruct (Z.ltb_spec ts (now - timeout)); [reflexivity|lia]. }
    split; [|exact Q]. constructor; [exact I'|congruence|].
    intros k. rewrite Q. unfold fresh. destruct (f k) as [[v ts]|]; [|auto].
    destruct (Z.ltb_spec ts (now - timeout)); [right|auto]. split; [reflexivity|]. eauto.
  Qed.

  Lemma tracks_index (dflt : V) timeout t now k v m f : (t <= now)%Z -> tracks timeout t m f ->
    exists m', em_index dflt now k (fun _ => v) m = Some m' /\ tracks timeout now m' (upd k (Some (v, now)) f).
  Proof.
    intros L Tr. pose proof (tracks_later _ _ now _ _ L Tr) as Tr2. destruct Tr as [I T A].
    destruct (inv_step dflt (OIndex now k (fun _ => v)) t m I) as (m' & R & I' & (Al & At)); [discriminate|exact L|].
    cbn in R. cbn in I', At. exists m'. split; [exact R|]. constructor; [exact I'|congruence|].
    intros k'. rewrite Al. cbn [spec_step a_list]. unfold upd. destruct (eqb k' k) eqn:E; [auto|].
    apply (tr_at _ _ _ _ Tr2).
  Qed.

  Lemma tracks_erase (dflt : V) timeout t k m f : tracks timeout t m f ->
    exists m' b, em_erase k m = Some (m', b) /\ tracks timeout t m' (upd k None f).
  Proof.
    intros [I T A].
    destruct (inv_step dflt (OErase k) t m I) as (m' & R & I' & (Al & At)); [discriminate|exact Logic.I|].
    cbn in R. destruct (em_erase k m) as [[m1 b]|]; [|discriminate]. injection R as ->.
    exists m', b. split; [reflexivity|]. cbn in I', At. constructor; [exact I'|congruence|].
    intros k'. rewrite Al. cbn [spec_step a_list]. unfold upd. destruct (eqb k' k) eqn:E; [auto|]. apply A.
  Qed.
End Tracks.

(** ** The latest sample about a key *)
Section Latest.
  Context {K V : Type} `{EqDec K}.
  (** What a sample says about a key: nothing, a value, or that it is gone. *)
  Variable eff : sample -> K -> option (option V).
  Definition say (p : Z * sample) (k : K) (x : option (V * Z)) : option (V * Z) :=
    match eff (snd p) k with None => x | Some None => None | Some (Some v) => Some (v, fst p) end.
  Definition lat (h : list (Z * sample)) (k : K) : option (V * Z) := fold_left (fun x p => say p k x) h None.

  Lemma lat_snoc h p k : lat (h ++ [p]) k = say p k (lat h k).
  Proof. unfold lat. rewrite fold_left_app. reflexivity. Qed.

  Lemma lat_some h k v t : lat h k = Some (v, t) <->
    exists h1 s h2, h = h1 ++ (t, s) :: h2 /\ eff s k = Some (Some v) /\ forall t' s', In (t', s') h2 -> eff s' k = None.
  Proof.
    induction h as [|p h IH] using rev_ind.
    - split; [discriminate|]. intros (h1 & s & h2 & E & _). destruct h1; discriminate.
    - rewrite lat_snoc. unfold say. destruct (eff (snd p) k) as [[w|]|] eqn:E.
      + split.
        * intros Q. injection Q as -> <-. exists h, (snd p), []. rewrite <- surjective_pairing. repeat split; auto. intros ? ? [].
        * intros (h1 & s & h2 & Eh & Es & N). destruct h2 as [|q h2 _] using rev_ind.
          -- apply app_inj_tail in Eh as [_ ->]. cbn in *. congruence.
          -- exfalso. rewrite app_comm_cons, app_assoc in Eh. apply app_inj_tail in Eh as [_ ->].
             specialize (N (fst q) (snd q)). rewrite <- surjective_pairing in N.
             rewrite N in E; [discriminate|]. apply in_app_iff; right; left; reflexivity.
      + split; [discriminate|].
        intros (h1 & s & h2 & Eh & Es & N). destruct h2 as [|q h2 _] using rev_ind.
        * apply app_inj_tail in Eh as [_ ->]. cbn in *. congruence.
        * exfalso. rewrite app_comm_cons, app_assoc in Eh. apply app_inj_tail in Eh as [_ ->].
          specialize (N (fst q) (snd q)). rewrite <- surjective_pairing in N.
          rewrite N in E; [discriminate|]. apply in_app_iff; right; left; reflexivity.
      + rewrite IH. split.
        * intros (h1 & s & h2 & -> & Es & N). exists h1, s, (h2 ++ [p]). repeat split; auto.
          -- rewrite <- app_assoc. reflexivity.
          -- intros t' s' Hi. apply in_app_iff in Hi as [Hi|[Hi|[]]]; [eauto|]. subst p. exact E.
        * intros (h1 & s & h2 & Eh & Es & N). destruct h2 as [|q h2 _] using rev_ind.
          -- exfalso. apply app_inj_tail in Eh as [_ ->]. cbn in *. congruence.
          -- rewrite app_comm_cons, app_assoc in Eh. apply app_inj_tail in Eh as [-> ->].
             exists h1, s, h2. repeat split; auto. intros t' s' Hi. apply (N t'). apply in_app_iff; auto.
  Qed.
End Latest.

(** What a sample says about a topic of the publisher or subscriber listing. *)
Definition topic_eff (reg unreg : cmd) (producer : bool) (s : sample) (k : tkey) : option (option tinfo) :=
  match stoull (sm_entity s) with
  | PVal id =>
      if eqb k (tp_tname (sm_topic s), id) then
        if eqb (sm_cmd s) reg then Some (Some (topic_info producer id (tp_dtype (sm_topic s))))
        else if eqb (sm_cmd s) unreg then Some None else None
      else None
  | _ => None
  end.
(** The same for a method in the service or client listing. *)
Definition last_named (x : text) (ms : list method) : option method :=
  fold_left (fun a m => if eqb (me_name m) x then Some m else a) ms None.
Definition method_eff (reg unreg : cmd) (part : sample -> text * list method) (producer : bool) (s : sample) (k : skey)
    : option (option sinfo) :=
  match stoull (sm_entity s) with
  | PVal id =>
      if eqb (fst (fst k)) (fst (part s)) && Z.eqb (snd k) id then
        if eqb (sm_cmd s) reg then
          match last_named (snd (fst k)) (snd (part s)) with
          | Some m => Some (Some (method_info producer id m)) | None => None end
        else if eqb (sm_cmd s) unreg then Some None else None
      else None
  | _ => None
  end.

Definition pub_eff := topic_eff bct_reg_publisher bct_unreg_publisher true.
Definition sub_eff := topic_eff bct_reg_subscriber bct_unreg_subscriber false.
Definition srv_eff := method_eff bct_reg_service bct_unreg_service of_service true.
Definition cli_eff := method_eff bct_reg_client bct_unreg_client of_client false.

(** The whole gate. *)
Record ginv (timeout t : Z) (h : list (Z * sample)) (g : dgate) : Prop := {
  gi_pub : tracks timeout t (dg_pub g) (lat pub_eff h);
  gi_sub : tracks timeout t (dg_sub g) (lat sub_eff h);
  gi_srv : tracks timeout t (dg_srv g) (lat srv_eff h);
  gi_cli : tracks timeout t (dg_cli g) (lat cli_eff h) }.

Lemma ginv_new timeout t : ginv timeout t [] (dg_new timeout).
Proof. constructor; apply tracks_new. Qed.

(** A map whose listing is not the sample's business. *)
Lemma tracks_skip {K V} `{EqDec K} (eff : sample -> K -> option (option V)) timeout t now h s m :
  (t <= now)%Z -> (forall k, eff s k = None) -> tracks timeout t m (lat eff h) ->
  tracks timeout now m (lat eff (h ++ [(now, s)])).
Proof.
  intros L N T. apply (tracks_ext _ _ _ (lat eff h)).
  - intros k. rewrite lat_snoc. unfold say. cbn [snd]. rewrite N. reflexivity.
  - eapply tracks_later; eauto.
Qed.

Lemma topic_apply_ok timeout t now k v m f : (t <= now)%Z -> tracks timeout t m f ->
  exists m', topic_apply now k v m = DOk m' /\ tracks timeout now m' (upd k (Some (v, now)) f).
Proof.
  intros L T. destruct (tracks_expire tinfo0 timeout t now m f L T) as [T1 _].
  destruct (tracks_index tinfo0 timeout now now k v _ _ (Z.le_refl now) T1) as (m' & E & T2).
  exists m'. unfold topic_apply. rewrite E. auto.
Qed.
Lemma topic_remove_ok timeout t now k m f : (t <= now)%Z -> tracks timeout t m f ->
  exists m', topic_remove now k m = DOk m' /\ tracks timeout now m' (upd k None f).
Proof.
  intros L T. destruct (tracks_expire tinfo0 timeout t now m f L T) as [T1 _].
  destruct (tracks_erase tinfo0 timeout now k _ _ T1) as (m' & b & E & T2).
  exists m'. unfold topic_remove. rewrite E. auto.
Qed.
Lemma service_apply_ok timeout t now k v m f : (t <= now)%Z -> tracks timeout t m f ->
  exists m', service_apply now k v m = DOk m' /\ tracks timeout now m' (upd k (Some (v, now)) f).
Proof.
  intros L T. destruct (tracks_expire sinfo0 timeout t now m f L T) as [T1 _].
  destruct (tracks_index sinfo0 timeout now now k v _ _ (Z.le_refl now) T1) as (m' & E & T2).
  exists m'. unfold service_apply. rewrite E. auto.
Qed.

Lemma erase_all_ok timeout t ks : forall m f, tracks timeout t m f ->
  exists m', erase_all ks m = Some m' /\ tracks timeout t m' (fun k => if existsb (eqb k) ks then None else f k).
Proof.
  induction ks as [|k ks IH]; intros m f T; cbn [erase_all existsb].
  - exists m. auto.
  - destruct (tracks_erase sinfo0 timeout t k m f T) as (m1 & b & -> & T1).
    destruct (IH _ _ T1) as (m' & E & T2). exists m'. split; [exact E|].
    eapply tracks_ext; [|exact T2]. intros k'. cbn. unfold upd. destruct (eqb k' k), (existsb (eqb k') ks); reflexivity.
Qed.

(** The keys present in a map. *)
Lemma contents_keys {K V} `{EqDec K} timeout t (m : emap K V) f k : tracks timeout t m f ->
  (In k (map fst (em_contents m)) <-> a_list (abs m) k <> None).
Proof.
  intros [I _ _]. rewrite in_map_iff. split.
  - intros ([k' v] & <- & Hi). apply contents_find in Hi; [|apply (i_0 _ _ I)]. cbn [fst].
    rewrite (em_find_abs t m k' I) in Hi. destruct (a_list (abs m) k') as [[w ts]|]; congruence.
  - intros N. destruct (a_list (abs m) k) as [[w ts]|] eqn:E; [|congruence].
    exists (k, w). split; [reflexivity|]. apply contents_find; [apply (i_0 _ _ I)|].
    rewrite (em_find_abs t m k I), E. reflexivity.
Qed.

Definition of_this (name : text) (id : Z) (k : skey) : bool := eqb (fst (fst k)) name && Z.eqb (snd k) id.
Lemma service_remove_ok timeout t now name id m f : (t <= now)%Z -> tracks timeout t m f ->
  exists m', service_remove now name id m = DOk m' /\
    tracks timeout now m' (fun k => if of_this name id k then None else f k).
Proof.
  intros L T. destruct (tracks_expire sinfo0 timeout t now m f L T) as [T1 Q].
  set (m1 := fst (em_erase_expired now m)) in *.
  destruct (erase_all_ok timeout now (service_keys name id m1) m1 f T1) as (m' & E & T2).
  exists m'. unfold service_remove. fold m1. rewrite E. split; [reflexivity|].
  destruct T2 as [I2 To2 A2]. constructor; auto. intros k.
  specialize (A2 k).
  assert (existsb (eqb k) (service_keys name id m1) = of_this name id k && (match a_list (abs m1) k with Some _ => true | None => false end)) as X.
  { apply Bool.eq_true_iff_eq. rewrite existsb_exists, andb_true_iff. unfold service_keys. split.
    - intros (k' & Hi & Ek). apply eqb_true in Ek. subst k'. apply filter_In in Hi as [Hi Hk]. split; [exact Hk|].
      apply (contents_keys timeout now m1 f k T1) in Hi. destruct (a_list (abs m1) k); congruence.
    - intros [Hk Ha]. exists k. split; [|apply eqb_refl]. apply filter_In. split; [|exact Hk].
      apply (contents_keys timeout now m1 f k T1). destruct (a_list (abs m1) k); congruence. }
  rewrite X in A2. destruct (of_this name id k) eqn:O; [|exact A2]. cbn [andb] in A2.
  destruct (a_list (abs m1) k) as [x|] eqn:Em; [exact A2|].
  left. destruct A2 as [A2|(A2 & _)]; [|congruence].
  rewrite <- A2. pose proof (tr_at _ _ _ _ T1 k) as A1. rewrite Em in A1.
  (* absent before the removal: absent after it *)
  clear A1. symmetry. destruct (f k) as [[v ts]|] eqn:Ef; [|reflexivity]. exfalso.
  (* the erased map cannot list a key the map before did not list *)
  assert (forall ks m0 m0' f0, tracks timeout now m0 f0 -> erase_all ks m0 = Some m0' -> a_list (abs m0) k = None -> a_list (abs m0') k = None) as G.
  { clear. induction ks as [|k0 ks IH]; cbn [erase_all]; intros m0 m0' f0 T E N; [congruence|].
    destruct (tracks_erase sinfo0 timeout now k0 m0 f0 T) as (m1 & b & E1 & T1). rewrite E1 in E.
    eapply IH; [exact T1|exact E|].
    destruct (inv_step sinfo0 (OErase k0) now m0 (tr_inv _ _ _ _ T)) as (m' & R & I' & (Al & At)); [discriminate|exact Logic.I|].
    cbn in R. rewrite E1 in R. injection R as <-. rewrite Al. cbn [spec_step a_list]. unfold upd. destruct (eqb k k0); auto. }
  rewrite (G _ _ _ f T1 E Em) in A2. discriminate.
Qed.

Lemma last_named_app x ms m : last_named x (ms ++ [m]) = if eqb (me_name m) x then Some m else last_named x ms.
Proof. unfold last_named. rewrite fold_left_app. reflexivity. Qed.
Lemma last_named_spec x ms m : last_named x ms = Some m <-> last_called x m ms.
Proof.
  induction ms as [|a ms IH] using rev_ind.
  - split; [discriminate|]. intros (ms1 & ms2 & E & _). destruct ms1; discriminate.
  - rewrite last_named_app. destruct (eqb (me_name a) x) eqn:E.
    + apply eqb_true in E. split.
      * intros Q; injection Q as <-. exists ms, []. repeat split; auto.
      * intros (ms1 & ms2 & Em & En & N). destruct ms2 as [|b ms2 _] using rev_ind.
        -- apply app_inj_tail in Em as [_ ->]. reflexivity.
        -- exfalso. rewrite app_comm_cons, app_assoc in Em. apply app_inj_tail in Em as [_ ->].
           apply (N b); [apply in_app_iff; right; left; reflexivity|exact E].
    + apply eqb_false in E. rewrite IH. split.
      * intros (ms1 & ms2 & -> & En & N). exists ms1, (ms2 ++ [a]). repeat split; auto.
        -- rewrite <- app_assoc. reflexivity.
        -- intros m' Hi. apply in_app_iff in Hi as [Hi|[<-|[]]]; auto.
      * intros (ms1 & ms2 & Em & En & N). destruct ms2 as [|b ms2 _] using rev_ind.
        -- apply app_inj_tail in Em as [_ ->]. congruence.
        -- rewrite app_comm_cons, app_assoc in Em. apply app_inj_tail in Em as [-> ->].
           exists ms1, ms2. repeat split; auto. intros m' Hi. apply N. apply in_app_iff; auto.
Qed.
Lemma last_named_none x ms : last_named x ms = None <-> ~ In x (map me_name ms).
Proof.
  induction ms as [|a ms IH] using rev_ind.
  - cbn. tauto.
  - rewrite last_named_app, map_app, in_app_iff. cbn [map In].
    destruct (eqb (me_name a) x) eqn:E.
    + apply eqb_true in E. split; [discriminate|]. tauto.
    + apply eqb_false in E. rewrite IH. tauto.
Qed.

Definition methods_view (now : Z) (name : text) (id : Z) (producer : bool) (ms : list method) (f : skey -> option (sinfo * Z))
    : skey -> option (sinfo * Z) :=
  fold_left (fun f m => upd (name, me_name m, id) (Some (method_info producer id m, now)) f) ms f.
Lemma methods_apply_ok timeout now name e producer id ms : stoull e = PVal id ->
  forall t m f, (t <= now)%Z -> tracks timeout t m f ->
  exists m', methods_apply now name e producer ms m = DOk m' /\ tracks timeout now m' (methods_view now name id producer ms f).
Proof.
  intros E. induction ms as [|a ms IH]; intros t m f L T; cbn [methods_apply].
  - exists m. split; [reflexivity|]. eapply tracks_later; eauto.
  - rewrite E. destruct (service_apply_ok timeout t now (name, me_name a, id) (method_info producer id a) m f L T) as (m1 & -> & T1).
    cbn [dbind]. destruct (IH now m1 _ (Z.le_refl now) T1) as (m' & E' & T'). exists m'. auto.
Qed.
Lemma methods_view_at now name id producer ms f k :
  methods_view now name id producer ms f k =
  if eqb (fst (fst k)) name && Z.eqb (snd k) id then
    match last_named (snd (fst k)) ms with Some m => Some (method_info producer id m, now) | None => f k end
  else f k.
Proof.
  induction ms as [|a ms IH] using rev_ind.
  - cbn. destruct (eqb (fst (fst k)) name && Z.eqb (snd k) id); reflexivity.
  - unfold methods_view in *. rewrite fold_left_app. cbn [fold_left]. unfold upd at 1. rewrite last_named_app, IH. clear IH.
    destruct k as [[n x] i]; cbn [fst snd].
    destruct (eqb (n, x, i) (name, me_name a, id)) eqn:E.
    + apply eqb_true in E. injection E as -> -> ->. rewrite !eqb_refl, Z.eqb_refl. reflexivity.
    + destruct (eqb n name) eqn:En; cbn [andb]; [|reflexivity]. destruct (Z.eqb i id) eqn:Ei; [|reflexivity].
      destruct (eqb (me_name a) x) eqn:Ex; [|reflexivity].
      apply eqb_true in En. apply eqb_true in Ex. apply Z.eqb_eq in Ei. apply eqb_false in E. congruence.
Qed.

Lemma eqb_cmd_refl (c : cmd) : eqb c c = true.
Proof. apply eqb_refl. Qed.

Lemma topic_reg_step reg unreg producer timeout t now h s id m m' :
  stoull (sm_entity s) = PVal id -> sm_cmd s = reg -> (t <= now)%Z ->
  tracks timeout now m' (upd (tp_tname (sm_topic s), id) (Some (topic_info producer id (tp_dtype (sm_topic s)), now)) (lat (topic_eff reg unreg producer) h)) ->
  tracks timeout t m (lat (topic_eff reg unreg producer) h) ->
  tracks timeout now m' (lat (topic_eff reg unreg producer) (h ++ [(now, s)])).
Proof.
  intros E C L T _. eapply tracks_ext; [|exact T]. intros k. rewrite lat_snoc. unfold upd. generalize (lat (topic_eff reg unreg producer) h k); intros x. unfold say, topic_eff. cbn [fst snd].
  rewrite E, C, eqb_refl. destruct (eqb k (tp_tname (sm_topic s), id)); reflexivity.
Qed.
Lemma topic_unreg_step reg unreg producer timeout t now h s id m m' :
  stoull (sm_entity s) = PVal id -> sm_cmd s = unreg -> reg <> unreg -> (t <= now)%Z ->
  tracks timeout now m' (upd (tp_tname (sm_topic s), id) None (lat (topic_eff reg unreg producer) h)) ->
  tracks timeout t m (lat (topic_eff reg unreg producer) h) ->
  tracks timeout now m' (lat (topic_eff reg unreg producer) (h ++ [(now, s)])).
Proof.
  intros E C N L T _. eapply tracks_ext; [|exact T]. intros k. rewrite lat_snoc. unfold upd. generalize (lat (topic_eff reg unreg producer) h k); intros x. unfold say, topic_eff. cbn [fst snd].
  rewrite E, C, eqb_refl, (neq_eqb unreg reg) by congruence. destruct (eqb k (tp_tname (sm_topic s), id)); reflexivity.
Qed.
Lemma method_reg_step reg unreg part producer timeout now h s id m' :
  stoull (sm_entity s) = PVal id -> sm_cmd s = reg ->
  tracks timeout now m' (methods_view now (fst (part s)) id producer (snd (part s)) (lat (method_eff reg unreg part producer) h)) ->
  tracks timeout now m' (lat (method_eff reg unreg part producer) (h ++ [(now, s)])).
Proof.
  intros E C T. eapply tracks_ext; [|exact T]. intros k. rewrite methods_view_at, lat_snoc. generalize (lat (method_eff reg unreg part producer) h k); intros x. unfold say, method_eff. cbn [fst snd].
  rewrite E, C, eqb_refl. destruct (eqb (fst (fst k)) (fst (part s)) && Z.eqb (snd k) id); [|reflexivity].
  destruct (last_named (snd (fst k)) (snd (part s))); reflexivity.
Qed.
Lemma method_unreg_step reg unreg part producer timeout now h s id m' :
  stoull (sm_entity s) = PVal id -> sm_cmd s = unreg -> reg <> unreg ->
  tracks timeout now m' (fun k => if of_this (fst (part s)) id k then None else lat (method_eff reg unreg part producer) h k) ->
  tracks timeout now m' (lat (method_eff reg unreg part producer) (h ++ [(now, s)])).
Proof.
  intros E C N T. eapply tracks_ext; [|exact T]. intros k. rewrite lat_snoc. generalize (lat (method_eff reg unreg part producer) h k); intros x. unfold say, method_eff, of_this. cbn [fst snd].
  rewrite E, C, eqb_refl, (neq_eqb unreg reg) by congruence. destruct (eqb (fst (fst k)) (fst (part s)) && Z.eqb (snd k) id); reflexivity.
Qed.
Lemma method_none_step reg unreg part producer timeout t now h s m :
  (t <= now)%Z -> sm_cmd s = reg -> snd (part s) = [] ->
  tracks timeout t m (lat (method_eff reg unreg part producer) h) ->
  tracks timeout now m (lat (method_eff reg unreg part producer) (h ++ [(now, s)])).
Proof.
  intros L C N T. apply (tracks_skip _ _ t); auto. intros k. unfold method_eff. rewrite N, C, eqb_refl. cbn.
  destruct (stoull (sm_entity s)); [|reflexivity|reflexivity]. destruct (_ && _); reflexivity.
Qed.

Lemma topic_eff_other reg unreg producer s k : sm_cmd s <> reg -> sm_cmd s <> unreg -> topic_eff reg unreg producer s k = None.
Proof.
  intros A B. unfold topic_eff. rewrite (neq_eqb _ _ A), (neq_eqb _ _ B).
  destruct (stoull (sm_entity s)); try reflexivity. destruct (eqb k _); reflexivity.
Qed.
Lemma method_eff_other reg unreg part producer s k : sm_cmd s <> reg -> sm_cmd s <> unreg -> method_eff reg unreg part producer s k = None.
Proof.
  intros A B. unfold method_eff. rewrite (neq_eqb _ _ A), (neq_eqb _ _ B).
  destruct (stoull (sm_entity s)); try reflexivity. destruct (_ && _); reflexivity.
Qed.

Lemma ginv_skip timeout t now h s g : (t <= now)%Z ->
  (forall k, pub_eff s k = None) -> (forall k, sub_eff s k = None) -> (forall k, srv_eff s k = None) -> (forall k, cli_eff s k = None) ->
  ginv timeout t h g -> ginv timeout now (h ++ [(now, s)]) g.
Proof. intros L A B C D [P Q R S]. constructor; eapply tracks_skip; eauto. Qed.

Ltac other C := intros k; first [apply topic_eff_other|apply method_eff_other]; rewrite C; discriminate.
Ltac keep C L := eapply tracks_skip; [exact L|other C|assumption].

Lemma apply_step timeout t h g now s : ginv timeout t h g -> (t <= now)%Z ->
  (exists g', dg_apply now s g = DOk g' /\ ginv timeout now (h ++ [(now, s)]) g' /\ (needs_id s -> exists n, stoull (sm_entity s) = PVal n)) \/
  (dg_apply now s g = DThrow /\ needs_id s /\ forall n, stoull (sm_entity s) <> PVal n).
Proof.
  intros G L. pose proof G as G0. destruct G as [P Q R S]. unfold dg_apply, needs_id.
  destruct (sm_cmd s) eqn:C;
    try (left; exists g; split; [reflexivity|]; split; [|tauto]; apply (ginv_skip timeout t); auto; other C).
  - (* publisher registered *)
    unfold with_id. destruct (stoull (sm_entity s)) as [id| |] eqn:E; [left|right; repeat split; auto; congruence|right; repeat split; auto; congruence].
    destruct (topic_apply_ok timeout t now (tp_tname (sm_topic s), id) (topic_info true id (tp_dtype (sm_topic s))) _ _ L P) as (m' & -> & T).
    eexists; split; [reflexivity|]. split; [|eauto]. constructor; cbn [put_pub dg_pub dg_sub dg_srv dg_cli]; try keep C L.
    eapply topic_reg_step; eauto.
  - unfold with_id. destruct (stoull (sm_entity s)) as [id| |] eqn:E; [left|right; repeat split; auto; congruence|right; repeat split; auto; congruence].
    destruct (topic_apply_ok timeout t now (tp_tname (sm_topic s), id) (topic_info false id (tp_dtype (sm_topic s))) _ _ L Q) as (m' & -> & T).
    eexists; split; [reflexivity|]. split; [|eauto]. constructor; cbn [put_sub dg_pub dg_sub dg_srv dg_cli]; try keep C L.
    eapply topic_reg_step; eauto.
  - (* service registered *)
    destruct (stoull (sm_entity s)) as [id| |] eqn:E.
    + left. destruct (methods_apply_ok timeout now (sv_sname (sm_service s)) (sm_entity s) true id (sv_methods (sm_service s)) E t _ _ L R) as (m' & -> & T).
      eexists; split; [reflexivity|]. split; [|eauto]. constructor; cbn [put_srv dg_pub dg_sub dg_srv dg_cli]; try keep C L.
      eapply method_reg_step; eauto.
    + destruct (sv_methods (sm_service s)) as [|a ms] eqn:M.
      * left. cbn. eexists; split; [reflexivity|]. split; [|congruence]. constructor; cbn [put_srv dg_pub dg_sub dg_srv dg_cli]; try keep C L.
        eapply method_none_step; eauto.
      * right. cbn. rewrite E. repeat split; auto; congruence.
    + destruct (sv_methods (sm_service s)) as [|a ms] eqn:M.
      * left. cbn. eexists; split; [reflexivity|]. split; [|congruence]. constructor; cbn [put_srv dg_pub dg_sub dg_srv dg_cli]; try keep C L.
        eapply method_none_step; eauto.
      * right. cbn. rewrite E. repeat split; auto; congruence.
  - (* client registered *)
    destruct (stoull (sm_entity s)) as [id| |] eqn:E.
    + left. destruct (methods_apply_ok timeout now (cl_sname (sm_client s)) (sm_entity s) false id (cl_methods (sm_client s)) E t _ _ L S) as (m' & -> & T).
      eexists; split; [reflexivity|]. split; [|eauto]. constructor; cbn [put_cli dg_pub dg_sub dg_srv dg_cli]; try keep C L.
      eapply method_reg_step; eauto.
    + destruct (cl_methods (sm_client s)) as [|a ms] eqn:M.
      * left. cbn. eexists; split; [reflexivity|]. split; [|congruence]. constructor; cbn [put_cli dg_pub dg_sub dg_srv dg_cli]; try keep C L.
        eapply method_none_step; eauto.
      * right. cbn. rewrite E. repeat split; auto; congruence.
    + destruct (cl_methods (sm_client s)) as [|a ms] eqn:M.
      * left. cbn. eexists; split; [reflexivity|]. split; [|congruence]. constructor; cbn [put_cli dg_pub dg_sub dg_srv dg_cli]; try keep C L.
        eapply method_none_step; eauto.
      * right. cbn. rewrite E. repeat split; auto; congruence.
  - unfold with_id. destruct (stoull (sm_entity s)) as [id| |] eqn:E; [left|right; repeat split; auto; congruence|right; repeat split; auto; congruence].
    destruct (topic_remove_ok timeout t now (tp_tname (sm_topic s), id) _ _ L P) as (m' & -> & T).
    eexists; split; [reflexivity|]. split; [|eauto]. constructor; cbn [put_pub dg_pub dg_sub dg_srv dg_cli]; try keep C L.
    eapply topic_unreg_step; eauto. discriminate.
  - unfold with_id. destruct (stoull (sm_entity s)) as [id| |] eqn:E; [left|right; repeat split; auto; congruence|right; repeat split; auto; congruence].
    destruct (topic_remove_ok timeout t now (tp_tname (sm_topic s), id) _ _ L Q) as (m' & -> & T).
    eexists; split; [reflexivity|]. split; [|eauto]. constructor; cbn [put_sub dg_pub dg_sub dg_srv dg_cli]; try keep C L.
    eapply topic_unreg_step; eauto. discriminate.
  - unfold with_id. destruct (stoull (sm_entity s)) as [id| |] eqn:E; [left|right; repeat split; auto; congruence|right; repeat split; auto; congruence].
    destruct (service_remove_ok timeout t now (sv_sname (sm_service s)) id _ _ L R) as (m' & -> & T).
    eexists; split; [reflexivity|]. split; [|eauto]. constructor; cbn [put_srv dg_pub dg_sub dg_srv dg_cli]; try keep C L.
    eapply method_unreg_step; eauto. discriminate.
  - unfold with_id. destruct (stoull (sm_entity s)) as [id| |] eqn:E; [left|right; repeat split; auto; congruence|right; repeat split; auto; congruence].
    destruct (service_remove_ok timeout t now (cl_sname (sm_client s)) id _ _ L S) as (m' & -> & T).
    eexists; split; [reflexivity|]. split; [|eauto]. constructor; cbn [put_cli dg_pub dg_sub dg_srv dg_cli]; try keep C L.
    eapply method_unreg_step; eauto. discriminate.
Qed.

(** ** Runs *)
Lemma ask_step timeout t h g now : ginv timeout t h g -> (t <= now)%Z ->
  ginv timeout now h (fst (dg_publishers now g)) /\ ginv timeout now h (fst (dg_subscribers now g)) /\
  ginv timeout now h (fst (dg_services now g)) /\ ginv timeout now h (fst (dg_clients now g)).
Proof.
  intros [P Q R S] L.
  pose proof (tracks_later _ _ now _ _ L P) as P'. pose proof (tracks_later _ _ now _ _ L Q) as Q'.
  pose proof (tracks_later _ _ now _ _ L R) as R'. pose proof (tracks_later _ _ now _ _ L S) as S'.
  destruct (tracks_expire tinfo0 _ _ _ _ _ L P) as [P2 _]. destruct (tracks_expire tinfo0 _ _ _ _ _ L Q) as [Q2 _].
  destruct (tracks_expire sinfo0 _ _ _ _ _ L R) as [R2 _]. destruct (tracks_expire sinfo0 _ _ _ _ _ L S) as [S2 _].
  split; [|split; [|split]]; constructor; assumption.
Qed.

Lemma upwards_cons a b l : upwards (a :: b :: l) <-> (a <= b)%Z /\ upwards (b :: l).
Proof. reflexivity. Qed.

Definition readable (s : sample) : Prop := needs_id s -> exists n, reads (sm_entity s) n.
Lemma run_step timeout now : forall os t h g, ginv timeout t h g -> upwards (t :: map fst os ++ [now]) ->
  (exists g' t', dg_run os g = DOk g' /\ ginv timeout t' (h ++ samples os) g' /\ (t' <= now)%Z /\
     forall ts s, In (ts, DSample s) os -> readable s) \/
  (dg_run os g = DThrow /\ exists ts s, In (ts, DSample s) os /\ ~ readable s).
Proof.
  induction os as [|[a o] os IH]; intros t h g G U.
  - left. exists g, t. cbn in *. rewrite app_nil_r. split; [reflexivity|]. split; [exact G|]. split; [lia|]. intros ? ? [].
  - cbn [map fst app] in U. apply upwards_cons in U as [L U]. cbn [dg_run].
    assert ((exists g', dg_step a o g = DOk g' /\ ginv timeout a (h ++ samples [(a, o)]) g' /\ (forall s, o = DSample s -> readable s)) \/
            (dg_step a o g = DThrow /\ exists s, o = DSample s /\ ~ readable s)) as St.
    { destruct o as [s| | | |]; cbn [dg_step samples flat_map snd fst app].
      - destruct (apply_step timeout t h g a s G L) as [(g' & E & G' & N)|(E & N1 & N2)].
        + left. exists g'. split; [exact E|]. split; [exact G'|]. intros s' [= <-] Hn. destruct (N Hn) as [n Hn']. exists n. apply stoull_reads; assumption.
        + right. split; [exact E|]. exists s. split; [reflexivity|]. intros R. destruct (R N1) as [n Rn]. apply stoull_reads in Rn. exact (N2 _ Rn).
      - left. eexists; split; [reflexivity|]. rewrite app_nil_r. split; [apply (ask_step timeout t h g a G L)|discriminate].
      - left. eexists; split; [reflexivity|]. rewrite app_nil_r. split; [apply (ask_step timeout t h g a G L)|discriminate].
      - left. eexists; split; [reflexivity|]. rewrite app_nil_r. split; [apply (ask_step timeout t h g a G L)|discriminate].
      - left. eexists; split; [reflexivity|]. rewrite app_nil_r. split; [apply (ask_step timeout t h g a G L)|discriminate]. }
    destruct St as [(g' & -> & G' & N)|(-> & s & -> & N)]; cbn [dbind].
    + destruct (IH a _ g' G' U) as [(g2 & t2 & E2 & G2 & L2 & N2)|(E2 & ts & s & Hi & N2)].
      * left. exists g2, t2. rewrite <- app_assoc in G2. split; [exact E2|]. split; [|split; [exact L2|]].
        -- cbn [samples flat_map app] in G2. rewrite app_nil_r in G2. exact G2.
        -- intros ts s [Q|Hi]; [injection Q as _ ->; apply N; reflexivity|eauto].
      * right. split; [exact E2|]. exists ts, s. split; [right; exact Hi|exact N2].
    + right. split; [reflexivity|]. exists a, s. split; [left; reflexivity|exact N].
Qed.

Lemma run_all timeout now os : upwards (map fst os ++ [now]) ->
  (exists g' t', dg_run os (dg_new timeout) = DOk g' /\ ginv timeout t' (samples os) g' /\ (t' <= now)%Z /\
     forall ts s, In (ts, DSample s) os -> readable s) \/
  (dg_run os (dg_new timeout) = DThrow /\ exists ts s, In (ts, DSample s) os /\ ~ readable s).
Proof.
  intros U. apply (run_step timeout now os (hd now (map fst os)) [] (dg_new timeout) (ginv_new timeout _)).
  destruct os as [|[a o] os]; cbn in *; split; auto; lia.
Qed.

Lemma run_inv timeout now os g : upwards (map fst os ++ [now]) -> dg_run os (dg_new timeout) = DOk g ->
  exists t', ginv timeout t' (samples os) g /\ (t' <= now)%Z.
Proof.
  intros U R. destruct (run_all timeout now os U) as [(g' & t' & E & G & L & _)|(E & _)]; [|congruence].
  rewrite R in E. injection E as <-. eauto.
Qed.

(** ** Listings *)
Section SortLemmas.
  Context {A : Type} (lt : A -> A -> bool).
  Lemma put_sorted_perm x l : Permutation (x :: l) (put_sorted lt x l).
  Proof.
    induction l as [|y l IH]; cbn; [reflexivity|]. destruct (lt x y); [reflexivity|].
    rewrite perm_swap. constructor. exact IH.
  Qed.
  Lemma sort_perm l : Permutation l (sort_by lt l).
  Proof. induction l as [|x l IH]; cbn; [constructor|]. rewrite <- put_sorted_perm. constructor. exact IH. Qed.

  (** With a strict total order on the elements, the result is strictly sorted. *)
  Context (irr : forall x, lt x x = false) (tr : forall x y z, lt x y = true -> lt y z = true -> lt x z = true).
  Lemma put_sorted_sorted x l : (forall y, In y l -> lt x y = true \/ lt y x = true) ->
    StronglySorted (fun a b => lt a b = true) l -> StronglySorted (fun a b => lt a b = true) (put_sorted lt x l).
  Proof.
    intros T S. induction S as [|y l S IH F]; cbn; [repeat constructor|].
    destruct (lt x y) eqn:E.
    - constructor; [constructor; auto|]. constructor; [exact E|]. rewrite Forall_forall in *. intros z Hz. eapply tr; eauto.
    - constructor; [apply IH; intros z Hz; apply T; right; exact Hz|].
      rewrite Forall_forall in *. intros z Hz. apply (Permutation_in z (Permutation_sym (put_sorted_perm x l))) in Hz as [->|Hz]; [|auto].
      destruct (T y (or_introl eq_refl)); congruence.
  Qed.
  Lemma sort_sorted l : NoDup l -> (forall x y, In x l -> In y l -> x <> y -> lt x y = true \/ lt y x = true) ->
    StronglySorted (fun a b => lt a b = true) (sort_by lt l).
  Proof.
    intros N T. induction N as [|x l Nx N IH]; cbn; [constructor|].
    apply put_sorted_sorted.
    - intros y Hy. apply (Permutation_in y (Permutation_sym (sort_perm l))) in Hy.
      apply T; [left; reflexivity|right; exact Hy|congruence].
    - apply IH. intros a b Ha Hb. apply T; right; assumption.
  Qed.
End SortLemmas.

(** What is listed: the entries that are not over the timeout. *)
Lemma listed_in {K V} `{EqDec K} (dflt : V) timeout t now (m : emap K V) f : (t <= now)%Z -> tracks timeout t m f ->
  let m' := fst (em_erase_expired now m) in
  (forall k v, In (k, v) (em_contents m') <-> exists ts, f k = Some (v, ts) /\ (now - timeout <= ts)%Z) /\
  NoDup (map fst (em_contents m')).
Proof.
  intros L T m'. destruct (tracks_expire dflt timeout t now m f L T) as [T1 Q]. fold m' in T1, Q.
  destruct T1 as [I _ _]. split; [|apply contents_nodup; apply (i_0 _ _ I)].
  intros k v. rewrite contents_find by apply (i_0 _ _ I). rewrite (em_find_abs now m' k I), Q. unfold fresh.
  destruct (f k) as [[w ts]|]; [|split; [discriminate|intros (ts & E & _); discriminate]].
  destruct (Z.ltb_spec ts (now - timeout)).
  - split; [discriminate|]. intros (ts' & E & L'). injection E as -> ->. lia.
  - split; [intros E; injection E as ->; exists ts; split; [reflexivity|lia]|]. intros (ts' & E & _). injection E as -> ->. reflexivity.
Qed.

Lemma quality_grade d p : dg_quality d p = grade d p.
Proof.
  unfold dg_quality, grade, one_if, given, is_empty. destruct d as [n e c]; cbn [dt_name dt_encoding dt_desc].
  destruct n, e, c, p; try reflexivity;
    repeat match goal with |- context [eqb (?x :: ?l) []] => replace (eqb (x :: l) []) with false by (symmetry; apply neq_eqb; discriminate) end; reflexivity.
Qed.

Lemma topic_eff_some reg unreg producer s k v : topic_eff reg unreg producer s k = Some (Some v) <->
  sm_cmd s = reg /\ tp_tname (sm_topic s) = fst k /\ reads (sm_entity s) (snd k) /\
  v = TInfo (snd k) (tp_dtype (sm_topic s)) (grade (tp_dtype (sm_topic s)) producer).
Proof.
  unfold topic_eff. destruct k as [name n]. cbn [fst snd]. rewrite <- stoull_reads. split.
  - destruct (stoull (sm_entity s)) as [id| |]; try discriminate.
    destruct (eqb (name, n) (tp_tname (sm_topic s), id)) eqn:E; [|discriminate]. apply eqb_true in E. injection E as -> ->.
    destruct (eqb (sm_cmd s) reg) eqn:C; [|destruct (eqb (sm_cmd s) unreg); discriminate].
    apply eqb_true in C. intros [= <-]. unfold topic_info. rewrite quality_grade. auto.
  - intros (C & N & -> & ->). rewrite N, eqb_refl, C, eqb_refl. unfold topic_info. rewrite quality_grade. reflexivity.
Qed.
Lemma topic_eff_none reg unreg producer s k : topic_eff reg unreg producer s k = None <->
  ((sm_cmd s = reg \/ sm_cmd s = unreg) -> tp_tname (sm_topic s) = fst k -> ~ reads (sm_entity s) (snd k)).
Proof.
  unfold topic_eff. destruct k as [name n]. cbn [fst snd]. rewrite <- stoull_reads. split.
  - intros E C N R. rewrite R, N, eqb_refl in E. destruct (eqb (sm_cmd s) reg) eqn:C1; [discriminate|]. apply eqb_false in C1.
    destruct C as [C|C]; [congruence|]. rewrite C, eqb_refl in E. discriminate.
  - intros F. destruct (stoull (sm_entity s)) as [id| |]; try reflexivity.
    destruct (eqb (name, n) (tp_tname (sm_topic s), id)) eqn:E; [|reflexivity]. apply eqb_true in E. injection E as -> ->.
    destruct (eqb (sm_cmd s) reg) eqn:C1.
    + apply eqb_true in C1. exfalso; apply F; auto.
    + destruct (eqb (sm_cmd s) unreg) eqn:C2; [|reflexivity]. apply eqb_true in C2. exfalso; apply F; auto.
Qed.

Lemma topic_alive_lat reg unreg producer cmds h timeout now name n v :
  (forall c, cmds c = true <-> c = reg \/ c = unreg) ->
  ((exists ts, lat (topic_eff reg unreg producer) h (name, n) = Some (v, ts) /\ (now - timeout <= ts)%Z) <->
   (exists d, v = TInfo n d (grade d producer) /\ topic_alive reg cmds h timeout now name n d)).
Proof.
  intros Hc. split.
  - intros (ts & E & L). apply lat_some in E as (h1 & s & h2 & -> & E & N).
    apply topic_eff_some in E as (C & Nm & R & ->). cbn [fst snd] in *.
    exists (tp_dtype (sm_topic s)). split; [reflexivity|]. exists h1, ts, s, h2. repeat split; auto.
    intros t' s' Hi Hcm Hn. apply Hc in Hcm. specialize (N _ _ Hi). rewrite topic_eff_none in N. exact (N Hcm Hn).
  - intros (d & -> & h1 & ts & s & h2 & -> & C & Nm & R & <- & N & L). exists ts. split; [|exact L].
    apply lat_some. exists h1, s, h2. split; [reflexivity|]. split.
    + apply topic_eff_some. auto.
    + intros t' s' Hi. apply topic_eff_none. cbn [fst snd]. intros Hcm Hn. apply (N t' s' Hi); auto. apply Hc; exact Hcm.
Qed.

Lemma method_eff_some reg unreg part producer s k v : method_eff reg unreg part producer s k = Some (Some v) <->
  exists m, sm_cmd s = reg /\ fst (part s) = fst (fst k) /\ reads (sm_entity s) (snd k) /\ last_called (snd (fst k)) m (snd (part s)) /\
  v = SInfo (snd k) (request_of m) (response_of m) (grade (request_of m) producer) (grade (response_of m) producer).
Proof.
  unfold method_eff. destruct k as [[name x] n]. cbn [fst snd]. setoid_rewrite <- stoull_reads. split.
  - destruct (stoull (sm_entity s)) as [id| |]; try discriminate.
    destruct (eqb name (fst (part s)) && Z.eqb n id) eqn:E; [|discriminate]. apply andb_true_iff in E as [E1 E2].
    apply eqb_true in E1. apply Z.eqb_eq in E2. subst.
    destruct (eqb (sm_cmd s) reg) eqn:C; [|destruct (eqb (sm_cmd s) unreg); discriminate].
    destruct (last_named x (snd (part s))) as [m|] eqn:M; [|discriminate]. intros [= <-]. apply eqb_true in C.
    exists m. apply last_named_spec in M. unfold method_info. rewrite !quality_grade. auto.
  - intros (m & C & N & -> & M & ->). apply last_named_spec in M. rewrite N, eqb_refl, Z.eqb_refl, C, eqb_refl, M. cbn [andb].
    unfold method_info. rewrite !quality_grade. reflexivity.
Qed.
Lemma method_eff_none reg unreg part producer s k : reg <> unreg -> (method_eff reg unreg part producer s k = None <->
  (fst (part s) = fst (fst k) -> reads (sm_entity s) (snd k) ->
   sm_cmd s <> unreg /\ (sm_cmd s = reg -> ~ In (snd (fst k)) (map me_name (snd (part s)))))).
Proof.
  intros D. unfold method_eff. destruct k as [[name x] n]. cbn [fst snd]. rewrite <- stoull_reads. split.
  - intros E N R. rewrite R, N, eqb_refl, Z.eqb_refl in E. cbn [andb] in E. destruct (eqb (sm_cmd s) reg) eqn:C1.
    + apply eqb_true in C1. split; [congruence|]. intros _. destruct (last_named x (snd (part s))) eqn:M; [discriminate|].
      apply last_named_none; exact M.
    + apply eqb_false in C1. split; [|congruence]. intros C. rewrite C, eqb_refl in E. discriminate.
  - intros F. destruct (stoull (sm_entity s)) as [id| |]; try reflexivity.
    destruct (eqb name (fst (part s)) && Z.eqb n id) eqn:E; [|reflexivity]. apply andb_true_iff in E as [E1 E2].
    apply eqb_true in E1. apply Z.eqb_eq in E2. subst. destruct (F eq_refl eq_refl) as [F1 F2].
    destruct (eqb (sm_cmd s) reg) eqn:C1.
    + apply eqb_true in C1. specialize (F2 C1). apply last_named_none in F2. rewrite F2. reflexivity.
    + rewrite (neq_eqb _ _ F1). reflexivity.
Qed.
Lemma method_alive_lat reg unreg part producer h timeout now name x n v : reg <> unreg ->
  ((exists ts, lat (method_eff reg unreg part producer) h (name, x, n) = Some (v, ts) /\ (now - timeout <= ts)%Z) <->
   (exists m, v = SInfo n (request_of m) (response_of m) (grade (request_of m) producer) (grade (response_of m) producer) /\
              method_alive reg unreg part h timeout now name x n m)).
Proof.
  intros D. split.
  - intros (ts & E & L). apply lat_some in E as (h1 & s & h2 & -> & E & N).
    apply method_eff_some in E as (m & C & Nm & R & M & ->). cbn [fst snd] in *.
    exists m. split; [reflexivity|]. exists h1, ts, s, h2. repeat split; auto.
    + specialize (N _ _ H). rewrite method_eff_none in N by exact D. apply (N H0 H1).
    + specialize (N _ _ H). rewrite method_eff_none in N by exact D. apply (N H0 H1).
  - intros (m & -> & h1 & ts & s & h2 & -> & C & Nm & R & M & N & L). exists ts. split; [|exact L].
    apply lat_some. exists h1, s, h2. split; [reflexivity|]. split.
    + apply method_eff_some. exists m. auto.
    + intros t' s' Hi. apply method_eff_none; [exact D|]. cbn [fst snd]. apply (N t' s' Hi).
Qed.

(** The topic listings. *)
Lemma topics_listing timeout t now m reg unreg producer cmds h : (t <= now)%Z ->
  (forall c, cmds c = true <-> c = reg \/ c = unreg) ->
  tracks timeout t m (lat (topic_eff reg unreg producer) h) ->
  (forall name i, In (name, i) (snd (topics_of now m)) <->
     exists d, i = TInfo (ti_id i) d (grade d producer) /\ topic_alive reg cmds h timeout now name (ti_id i) d) /\
  NoDup (map (fun p => (fst p, ti_id (snd p))) (snd (topics_of now m))).
Proof.
  intros L Hc T. destruct (listed_in tinfo0 timeout t now m _ L T) as [Hi Nd].
  unfold topics_of. cbn [snd]. set (c := em_contents (fst (em_erase_expired now m))) in *.
  pose proof (sort_perm (fun a b : (text * Z) * tinfo => tkey_ltb (fst a) (fst b)) c) as P.
  assert (forall k v, In (k, v) c -> ti_id v = snd k) as Id.
  { intros [nm n] v H. apply Hi in H. apply (topic_alive_lat reg unreg producer cmds) in H as (d & -> & _); auto. }
  split.
  - intros name i. rewrite in_map_iff. split.
    + intros ([[nm n] v] & E & H). cbn in E. injection E as -> ->.
      apply (Permutation_in _ (Permutation_sym P)) in H. pose proof (Id _ _ H) as En. cbn in En. subst n.
      apply Hi in H. apply (topic_alive_lat reg unreg producer cmds) in H; auto.
    + intros H. apply (topic_alive_lat reg unreg producer cmds) in H; auto.
      apply Hi in H. exists (name, ti_id i, i). split; [reflexivity|]. apply (Permutation_in _ P). exact H.
  - rewrite map_map. cbn.
    eapply Permutation_NoDup; [apply Permutation_map; exact P|].
    rewrite (map_ext_in _ fst); [exact Nd|]. intros [[nm n] v] H. cbn. rewrite (Id _ _ H). reflexivity.
Qed.
Lemma services_listing timeout t now m reg unreg part producer h : (t <= now)%Z -> reg <> unreg ->
  tracks timeout t m (lat (method_eff reg unreg part producer) h) ->
  (forall name x i, In ((name, x), i) (snd (services_of now m)) <->
     exists me, i = SInfo (si_id i) (request_of me) (response_of me) (grade (request_of me) producer) (grade (response_of me) producer) /\
               method_alive reg unreg part h timeout now name x (si_id i) me) /\
  NoDup (map (fun p => (fst p, si_id (snd p))) (snd (services_of now m))).
Proof.
  intros L D T. destruct (listed_in sinfo0 timeout t now m _ L T) as [Hi Nd].
  unfold services_of. cbn [snd]. set (c := em_contents (fst (em_erase_expired now m))) in *.
  pose proof (sort_perm (fun a b : ((text * text) * Z) * sinfo => skey_ltb (fst a) (fst b)) c) as P.
  assert (forall k v, In (k, v) c -> si_id v = snd k) as Id.
  { intros [[nm y] n] v H. apply Hi in H. apply (method_alive_lat reg unreg part producer) in H as (d & -> & _); auto. }
  split.
  - intros name x i. rewrite in_map_iff. split.
    + intros ([[[nm y] n] v] & E & H). cbn in E. injection E as -> -> ->.
      apply (Permutation_in _ (Permutation_sym P)) in H. pose proof (Id _ _ H) as En. cbn in En. subst n.
      apply Hi in H. apply (method_alive_lat reg unreg part producer) in H; auto.
    + intros H. apply (method_alive_lat reg unreg part producer) in H; auto.
      apply Hi in H. exists (name, x, si_id i, i). split; [reflexivity|]. apply (Permutation_in _ P). exact H.
  - rewrite map_map. cbn.
    eapply Permutation_NoDup; [apply Permutation_map; exact P|].
    rewrite (map_ext_in _ fst); [exact Nd|]. intros [[[nm y] n] v] H. cbn. rewrite (Id _ _ H). reflexivity.
Qed.

Lemma pub_cmds c : is_pub_cmd c = true <-> c = bct_reg_publisher \/ c = bct_unreg_publisher.
Proof. destruct c; cbn; intuition congruence. Qed.
Lemma sub_cmds c : is_sub_cmd c = true <-> c = bct_reg_subscriber \/ c = bct_unreg_subscriber.
Proof. destruct c; cbn; intuition congruence. Qed.

Lemma publishers_lemma os timeout now g : upwards (map fst os ++ [now]) -> dg_run os (dg_new timeout) = DOk g ->
  (forall name i, In (name, i) (snd (dg_publishers now g)) <->
     exists d, i = TInfo (ti_id i) d (grade d true) /\ topic_alive bct_reg_publisher is_pub_cmd (samples os) timeout now name (ti_id i) d) /\
  NoDup (map (fun p => (fst p, ti_id (snd p))) (snd (dg_publishers now g))).
Proof.
  intros U R. destruct (run_inv timeout now os g U R) as (t & G & L).
  exact (topics_listing timeout t now _ _ _ _ _ _ L pub_cmds (gi_pub _ _ _ _ G)).
Qed.
Lemma subscribers_lemma os timeout now g : upwards (map fst os ++ [now]) -> dg_run os (dg_new timeout) = DOk g ->
  (forall name i, In (name, i) (snd (dg_subscribers now g)) <->
     exists d, i = TInfo (ti_id i) d (grade d false) /\ topic_alive bct_reg_subscriber is_sub_cmd (samples os) timeout now name (ti_id i) d) /\
  NoDup (map (fun p => (fst p, ti_id (snd p))) (snd (dg_subscribers now g))).
Proof.
  intros U R. destruct (run_inv timeout now os g U R) as (t & G & L).
  exact (topics_listing timeout t now _ _ _ _ _ _ L sub_cmds (gi_sub _ _ _ _ G)).
Qed.
Lemma services_lemma os timeout now g : upwards (map fst os ++ [now]) -> dg_run os (dg_new timeout) = DOk g ->
  (forall name x i, In ((name, x), i) (snd (dg_services now g)) <->
     exists me, i = SInfo (si_id i) (request_of me) (response_of me) (grade (request_of me) true) (grade (response_of me) true) /\
               method_alive bct_reg_service bct_unreg_service of_service (samples os) timeout now name x (si_id i) me) /\
  NoDup (map (fun p => (fst p, si_id (snd p))) (snd (dg_services now g))).
Proof.
  intros U R. destruct (run_inv timeout now os g U R) as (t & G & L).
  assert (bct_reg_service <> bct_unreg_service) as D by discriminate.
  exact (services_listing timeout t now _ _ _ of_service true _ L D (gi_srv _ _ _ _ G)).
Qed.
Lemma clients_lemma os timeout now g : upwards (map fst os ++ [now]) -> dg_run os (dg_new timeout) = DOk g ->
  (forall name x i, In ((name, x), i) (snd (dg_clients now g)) <->
     exists me, i = SInfo (si_id i) (request_of me) (response_of me) (grade (request_of me) false) (grade (response_of me) false) /\
               method_alive bct_reg_client bct_unreg_client of_client (samples os) timeout now name x (si_id i) me) /\
  NoDup (map (fun p => (fst p, si_id (snd p))) (snd (dg_clients now g))).
Proof.
  intros U R. destruct (run_inv timeout now os g U R) as (t & G & L).
  assert (bct_reg_client <> bct_unreg_client) as D by discriminate.
  exact (services_listing timeout t now _ _ _ of_client false _ L D (gi_cli _ _ _ _ G)).
Qed.

Lemma upwards_last ts : upwards ts -> exists now, upwards (ts ++ [now]).
Proof.
  induction ts as [|a ts IH]; intros U; [exists 0%Z; exact Logic.I|].
  destruct ts as [|b ts].
  - exists a. cbn. lia.
  - apply upwards_cons in U as [L U]. destruct (IH U) as [now U']. exists now. cbn [app] in *. apply upwards_cons. auto.
Qed.
(** The gate survives exactly the histories whose ids can be read. *)
Lemma survives_lemma os timeout : upwards (map fst os) ->
  ((exists g, dg_run os (dg_new timeout) = DOk g) <->
   (forall t s, In (t, DSample s) os -> needs_id s -> exists n, reads (sm_entity s) n)) /\
  (dg_run os (dg_new timeout) = DThrow \/ exists g, dg_run os (dg_new timeout) = DOk g).
Proof.
  intros U. destruct (upwards_last _ U) as [now U'].
  destruct (run_all timeout now os U') as [(g & t & E & _ & _ & A)|(E & ts & s & Hi & N)]; (split; [split|]).
  - intros _. intros t0 s Hi. exact (A t0 s Hi).
  - intros _. eauto.
  - eauto.
  - intros [g E']. congruence.
  - intros A. exfalso. apply N. intros Q. exact (A ts s Hi Q).
  - auto.
Qed.
Lemma throws_lemma os timeout now g s : upwards (map fst os ++ [now]) -> dg_run os (dg_new timeout) = DOk g ->
  (dg_apply now s g = DThrow <-> needs_id s /\ ~ exists n, reads (sm_entity s) n) /\ dg_apply now s g <> DUB.
Proof.
  intros U R. destruct (run_inv timeout now os g U R) as (t & G & L).
  destruct (apply_step timeout t _ g now s G L) as [(g' & E & _ & N)|(E & N1 & N2)]; rewrite E; (split; [split|discriminate]).
  - discriminate.
  - intros [A B]. exfalso. apply B. destruct (N A) as [n Q]. exists n. apply stoull_reads; exact Q.
  - intros _. split; [exact N1|]. intros [n Q]. apply stoull_reads in Q. exact (N2 _ Q).
  - reflexivity.
Qed.
