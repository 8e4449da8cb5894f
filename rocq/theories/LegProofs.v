(** Proofs for connections of the legacy protocol. *)
From Coq Require Import Lia.
From Verif Require Import Base Sample FrmModel FrmProofs LegModel LegSpec.
Local Opaque max_length.

Lemma some_inj {A} (a b : A) : Some a = Some b -> b = a.
Proof. congruence. Qed.
(** ** The session of the server *)
Definition v_ok (v : v0) : Prop := (forall x, v_read v = Some x -> x <> []) /\ (v_read v = None -> v_sock v = [] -> v_req v = []).
Lemma first_ne (l : list Z) : l <> [] -> firstn max_length l <> [].
Proof. destruct max_length_pos as [n ->]. destruct l; cbn; congruence. Qed.
Lemma v_ok_step o v : v_ok v -> v_ok (v0_step o v).
Proof.
  destruct v as [k q r c]. intros [A B]. cbn [v_read v_sock v_req] in *. destruct o; cbn [v0_step v_read v_sock v_req v_calls].
  - split; cbn [v_read v_sock v_req]; [exact A|]. intros R E. apply app_eq_nil in E. apply B; tauto.
  - destruct r as [x|]; [split; assumption|]. destruct k as [|b k]; [split; assumption|].
    split; cbn [v_read v_sock v_req]; [|discriminate]. intros x E. injection E as <-. apply first_ne. discriminate.
  - destruct r as [x|]; [|split; assumption]. destruct k as [|b k]; split; cbn [v_read v_sock v_req]; congruence.
Qed.
Lemma held_arrive x v : l_held (v0_step (VArrive x) v) = l_held v ++ x /\ v_calls (v0_step (VArrive x) v) = v_calls v.
Proof. destruct v as [k q r c]. unfold l_held. cbn [v0_step v_read v_sock v_req v_calls]. split; [|reflexivity]. rewrite !app_assoc. reflexivity. Qed.
Lemma held_read v : l_held (v0_step VRead v) = l_held v /\ v_calls (v0_step VRead v) = v_calls v.
Proof.
  destruct v as [k q r c]. unfold l_held. cbn [v0_step v_read v_sock v_req v_calls]. destruct r as [x|]; [split; reflexivity|].
  destruct k as [|b k]; [split; reflexivity|]. cbn [v_read v_sock v_req v_calls]. rewrite firstn_skipn. split; reflexivity.
Qed.
Lemma held_handle v : v_ok v ->
  (l_held (v0_step VHandle v) = l_held v /\ v_calls (v0_step VHandle v) = v_calls v) \/
  (exists x, v_read v = Some x /\ v_sock v = [] /\ l_held v <> [] /\ l_held (v0_step VHandle v) = [] /\ v_calls (v0_step VHandle v) = v_calls v ++ [l_held v]).
Proof.
  destruct v as [k q r c]. intros [A B]. unfold l_held. cbn [v0_step v_read v_sock v_req v_calls] in *. destruct r as [x|]; [|left; split; reflexivity].
  destruct k as [|b k]; cbn [v_read v_sock v_req v_calls].
  - right. exists x. rewrite app_nil_r. repeat split; auto. intros E. apply app_eq_nil in E. apply (A x eq_refl). tauto.
  - left. rewrite <- app_assoc. split; reflexivity.
Qed.

(** ** What holds in every run *)
Definition l_inv (s : leg) : Prop :=
  v_ok (lg_srv s) /\
  concat (lg_sent s) = concat (v_calls (lg_srv s)) ++ l_held (lg_srv s) ++ lg_up s /\
  (exists c, c ++ lg_down s = concat (map frame0 (lg_resp s)) /\ feed0 (SHdr []) c = (lg_rd s, lg_got s)) /\
  length (lg_resp s) <= length (v_calls (lg_srv s)) <= S (length (lg_resp s)) /\
  (lg_lost s = false -> length (lg_sent s) = length (lg_got s) + if lg_flight s then 1 else 0) /\
  (lg_lost s = true -> lg_flight s = false).
Lemma feed0_one r b : feed0 r [b] = match push0 r b with inl r' => (r', []) | inr m => (SHdr [], [m]) end.
Proof. cbn [feed0]. destruct (push0 r b); reflexivity. Qed.
Lemma l_inv0 : l_inv leg0.
Proof.
  unfold l_inv, leg0. cbn. repeat split; try lia; try discriminate; auto. exists []. split; reflexivity.
Qed.
Lemma l_inv_step o s s' : l_inv s -> lg_step o s = Some s' -> l_inv s'.
Proof.
  destruct s as [w se fl lo up v rs dn rd g]. intros (V & B & (c & C1 & C2) & N & F & L). cbn [lg_srv lg_sent lg_up lg_down lg_resp lg_rd lg_got lg_lost lg_flight] in *.
  destruct o as [bs| |n| | |bs| |]; cbn [lg_step lg_wait lg_srv lg_sent lg_up lg_down lg_resp lg_rd lg_got lg_lost lg_flight]; unfold lg_busy, set_srv;
    cbn [lg_wait lg_srv lg_sent lg_up lg_down lg_resp lg_rd lg_got lg_lost lg_flight]; intros E.
  - destruct lo; apply some_inj in E; subst s'; unfold l_inv; cbn [lg_srv lg_sent lg_up lg_down lg_resp lg_rd lg_got lg_lost lg_flight]; (repeat split; try apply V; try apply N; auto); exists c; auto.
  - destruct w as [|b w]; [discriminate|]. destruct fl; [discriminate|]. destruct lo; [discriminate|]. apply some_inj in E; subst s'.
    unfold l_inv; cbn [lg_srv lg_sent lg_up lg_down lg_resp lg_rd lg_got lg_lost lg_flight]. split; [exact V|]. split.
    { rewrite concat_app, B. cbn [concat]. rewrite app_nil_r, <- !app_assoc. reflexivity. }
    split; [exists c; auto|]. split; [exact N|]. split; [|discriminate]. intros _. rewrite app_length, (F eq_refl). cbn. lia.
  - apply some_inj in E; subst s'. unfold l_inv; cbn [lg_srv lg_sent lg_up lg_down lg_resp lg_rd lg_got lg_lost lg_flight].
    destruct (held_arrive (firstn n up) v) as [H1 H2]. split; [apply v_ok_step, V|]. rewrite H1, H2. split.
    { rewrite B, <- !app_assoc, firstn_skipn. reflexivity. }
    split; [exists c; auto|]. auto.
  - destruct (Nat.ltb (length rs) (length (v_calls v))); [discriminate|]. apply some_inj in E; subst s'.
    unfold l_inv; cbn [lg_srv lg_sent lg_up lg_down lg_resp lg_rd lg_got lg_lost lg_flight]. destruct (held_read v) as [H1 H2].
    split; [apply v_ok_step, V|]. rewrite H1, H2. split; [exact B|]. split; [exists c; auto|]. auto.
  - destruct (Nat.ltb_spec (length rs) (length (v_calls v))) as [Q|Q]; [discriminate|]. apply some_inj in E; subst s'.
    unfold l_inv; cbn [lg_srv lg_sent lg_up lg_down lg_resp lg_rd lg_got lg_lost lg_flight]. split; [apply v_ok_step, V|].
    destruct (held_handle v V) as [[H1 H2]|(x & _ & _ & _ & H1 & H2)]; rewrite H1, H2.
    + split; [exact B|]. split; [exists c; auto|]. auto.
    + split. { rewrite B, concat_app. cbn [concat]. rewrite app_nil_r, <- app_assoc. reflexivity. }
      split; [exists c; auto|]. rewrite app_length. cbn [length]. split; [lia|]. auto.
  - destruct (Nat.ltb_spec (length rs) (length (v_calls v))) as [Q|Q]; [|discriminate]. apply some_inj in E; subst s'.
    unfold l_inv; cbn [lg_srv lg_sent lg_up lg_down lg_resp lg_rd lg_got lg_lost lg_flight]. split; [exact V|]. split; [exact B|]. split.
    { exists c. split; [|exact C2]. rewrite app_assoc, C1, map_app, concat_app. cbn [map concat]. rewrite app_nil_r. reflexivity. }
    rewrite app_length. cbn [length]. split; [lia|]. auto.
  - destruct fl; [|discriminate]. destruct dn as [|b dn]; [discriminate|]. assert (FF := feed0_one rd b).
    assert (CC : (c ++ [b]) ++ dn = concat (map frame0 rs)) by (rewrite <- app_assoc; exact C1).
    assert (KK : feed0 (SHdr []) (c ++ [b]) = let (r2, m2) := feed0 rd [b] in (r2, g ++ m2)) by (rewrite feed0_app, C2; reflexivity).
    destruct lo; [specialize (L eq_refl); discriminate|].
    destruct (push0 rd b) as [r|m]; apply some_inj in E; subst s'; unfold l_inv; cbn [lg_srv lg_sent lg_up lg_down lg_resp lg_rd lg_got lg_lost lg_flight]; rewrite FF in KK.
    + rewrite app_nil_r in KK. split; [exact V|]. split; [exact B|]. split; [exists (c ++ [b]); auto|]. auto.
    + split; [exact V|]. split; [exact B|]. split; [exists (c ++ [b]); auto|]. split; [exact N|]. split; [|discriminate]. intros _. rewrite app_length, (F eq_refl). cbn. lia.
  - apply some_inj in E; subst s'. unfold l_inv; cbn [lg_srv lg_sent lg_up lg_down lg_resp lg_rd lg_got lg_lost lg_flight].
    split; [exact V|]. split; [exact B|]. split; [exists c; auto|]. split; [exact N|]. split; [discriminate|reflexivity].
Qed.
Lemma l_inv_run ops : forall s s', l_inv s -> lg_run ops s = Some s' -> l_inv s'.
Proof.
  induction ops as [|o ops IH]; intros s s' H E; cbn [lg_run] in E; [apply some_inj in E; subst; exact H|].
  destruct (lg_step o s) as [s1|] eqn:S1; [|discriminate]. apply (IH s1); [exact (l_inv_step o s s1 H S1)|exact E].
Qed.
Lemma l_inv_reach ops s : lreach ops s -> l_inv s.
Proof. apply l_inv_run, l_inv0. Qed.

Lemma frames_read l : Forall (fun p => (Z.of_nat (length p) < 2 ^ 32)%Z) l -> feed0 (SHdr []) (concat (map frame0 l)) = (SHdr [], l).
Proof. induction 1 as [|p ps H A IH]; cbn [map concat]; [reflexivity|]. rewrite frame0_read by exact H. rewrite IH. reflexivity. Qed.
Lemma got_prefix s : l_inv s -> lfits s -> exists ms, feed0 (lg_rd s) (lg_down s) = (SHdr [], ms) /\ lg_resp s = lg_got s ++ ms.
Proof.
  intros (_ & _ & (c & C1 & C2) & _) A. pose proof (frames_read _ A) as K. rewrite <- C1, feed0_app, C2 in K.
  destruct (feed0 (lg_rd s) (lg_down s)) as [r ms]. injection K as -> K. exists ms. auto.
Qed.
Lemma bytes_lemma ops s : lreach ops s -> exists rest, concat (lg_sent s) = concat (v_calls (lg_srv s)) ++ rest.
Proof. intros R. destruct (l_inv_reach _ _ R) as (_ & B & _). eexists. exact B. Qed.
Lemma answers_lemma ops s k m : lreach ops s -> lfits s -> nth_error (lg_got s) k = Some m ->
  nth_error (lg_resp s) k = Some m /\ exists p, nth_error (v_calls (lg_srv s)) k = Some p.
Proof.
  intros R A G. pose proof (l_inv_reach _ _ R) as J. destruct (got_prefix s J A) as (ms & _ & E). destruct J as (_ & _ & _ & N & _).
  assert (K : nth_error (lg_resp s) k = Some m) by (rewrite E; rewrite nth_error_app1; [exact G|]; apply nth_error_Some; congruence).
  split; [exact K|]. destruct (nth_error (v_calls (lg_srv s)) k) as [p|] eqn:P; [eauto|]. apply nth_error_None in P.
  assert (k < length (lg_resp s)) by (apply nth_error_Some; congruence). lia.
Qed.
Lemma one_at_a_time_lemma ops s : lreach ops s -> lg_lost s = false -> length (lg_sent s) = length (lg_got s) + if lg_flight s then 1 else 0.
Proof. intros R. destruct (l_inv_reach _ _ R) as (_ & _ & _ & _ & F & _). exact F. Qed.

(** ** The calls *)
Lemma asked_none ops : asked_for true ops = [].
Proof. induction ops as [|[]]; cbn [asked_for]; auto. Qed.
Lemma asked_run ops : forall s s', lg_run ops s = Some s' ->
  exists gone, lg_sent s ++ lg_wait s ++ asked_for (lg_lost s) ops = lg_sent s' ++ lg_wait s' ++ gone /\ (lg_lost s' = false -> gone = []) /\ (lg_lost s = true -> lg_lost s' = true).
Proof.
  induction ops as [|o ops IH]; intros s s' E; cbn [lg_run] in E.
  - apply some_inj in E; subst s'. exists []. cbn. rewrite !app_nil_r. auto.
  - destruct (lg_step o s) as [s1|] eqn:S1; [|discriminate]. destruct (IH _ _ E) as (gone & H & G & T). clear IH E.
    destruct s as [w se fl lo up v rs dn rd g].
    destruct o as [bs| |n| | |bs| |]; cbn [asked_for lg_step] in *; unfold lg_busy, set_srv in *; cbn [lg_wait lg_srv lg_sent lg_up lg_down lg_resp lg_rd lg_got lg_lost lg_flight] in *.
    + destruct lo; apply some_inj in S1; subst s1; cbn [lg_wait lg_sent lg_lost] in *; exists gone; (split; [|auto]); [exact H|]. rewrite <- H, <- !app_assoc. reflexivity.
    + destruct w as [|b w]; [discriminate|]. destruct fl; [discriminate S1|]. destruct lo; [discriminate S1|]. apply some_inj in S1; subst s1. cbn [lg_wait lg_sent lg_lost] in *.
      exists gone. split; [|auto]. rewrite <- H, <- !app_assoc. reflexivity.
    + apply some_inj in S1; subst s1. exists gone. auto.
    + match type of S1 with (if ?b then _ else _) = _ => destruct b end; [discriminate|]. apply some_inj in S1; subst s1. exists gone. auto.
    + match type of S1 with (if ?b then _ else _) = _ => destruct b end; [discriminate|]. apply some_inj in S1; subst s1. exists gone. auto.
    + match type of S1 with (if ?b then _ else _) = _ => destruct b end; [|discriminate]. apply some_inj in S1; subst s1. exists gone. auto.
    + destruct fl; [|discriminate]. destruct dn as [|b dn]; [discriminate|]. destruct (push0 rd b); apply some_inj in S1; subst s1; exists gone; auto.
    + apply some_inj in S1; subst s1. cbn [lg_wait lg_sent lg_lost] in *. specialize (T eq_refl).
      rewrite asked_none in *. cbn [app] in H. rewrite app_nil_r in H. exists (gone ++ w). split; [|split; [congruence|auto]].
      rewrite app_nil_r, H, <- !app_assoc. reflexivity.
Qed.
Lemma order_lemma ops s : lreach ops s ->
  lprefix (lg_sent s) (asked_for false ops) /\ (lg_lost s = false -> asked_for false ops = lg_sent s ++ lg_wait s).
Proof.
  intros R. destruct (asked_run ops _ _ R) as (gone & H & G & _). cbn [lg_sent lg_wait lg_lost leg0 app] in H. split.
  - exists (lg_wait s ++ gone). exact H.
  - intros L. rewrite (G L), app_nil_r in H. exact H.
Qed.

(** ** Runs in which no request is cut *)
Definition l_winv (s : leg) : Prop :=
  (lg_sent s = v_calls (lg_srv s) /\ l_held (lg_srv s) = [] /\ lg_up s = []) \/ lg_sent s = v_calls (lg_srv s) ++ [l_held (lg_srv s) ++ lg_up s].
Definition l_cut (o : lop) (s : leg) : Prop :=
  match o, v_read (lg_srv s), v_sock (lg_srv s) with LHandle, Some _, [] => lg_up s = [] | _, _, _ => True end.
Lemma got_le s : l_inv s -> lfits s -> length (lg_got s) <= length (lg_resp s).
Proof. intros J A. destruct (got_prefix s J A) as (ms & _ & E). rewrite E, app_length. lia. Qed.
Lemma w_step o s s' : l_inv s -> lfits s -> l_winv s -> l_cut o s -> lg_step o s = Some s' -> l_winv s'.
Proof.
  intros J A W C E. pose proof (got_le s J A) as GL. destruct J as (V & B & _ & N & F & L). unfold l_winv, l_cut in *.
  destruct s as [w se fl lo up v rs dn rd g]. cbn [lg_srv lg_sent lg_up lg_down lg_resp lg_rd lg_got lg_lost lg_flight] in *.
  destruct o as [bs| |n| | |bs| |]; cbn [lg_step] in E; unfold lg_busy, set_srv in E; cbn [lg_wait lg_srv lg_sent lg_up lg_down lg_resp lg_rd lg_got lg_lost lg_flight] in E.
  - destruct lo; apply some_inj in E; subst s'; exact W.
  - destruct w as [|b w]; [discriminate|]. destruct fl; [discriminate E|]. destruct lo; [discriminate E|]. apply some_inj in E; subst s'. cbn [lg_srv lg_sent lg_up].
    right. destruct W as [(W1 & W2 & W3)|W].
    + rewrite W1, W2, W3. reflexivity.
    + specialize (F eq_refl). rewrite W, app_length in F. cbn [length] in F. lia.
  - apply some_inj in E; subst s'. cbn [lg_srv lg_sent lg_up]. destruct (held_arrive (firstn n up) v) as [H1 H2]. rewrite H1, H2.
    destruct W as [(W1 & W2 & W3)|W].
    + left. subst up. rewrite W2, firstn_nil, skipn_nil. auto.
    + right. rewrite <- app_assoc, firstn_skipn. exact W.
  - match type of E with (if ?b then _ else _) = _ => destruct b end; [discriminate E|]. apply some_inj in E; subst s'. cbn [lg_srv lg_sent lg_up].
    destruct (held_read v) as [H1 H2]. rewrite H1, H2. exact W.
  - match type of E with (if ?b then _ else _) = _ => destruct b end; [discriminate E|]. apply some_inj in E; subst s'. cbn [lg_srv lg_sent lg_up].
    destruct (held_handle v V) as [[H1 H2]|(x & R & K & HN & H1 & H2)]; rewrite H1, H2; [exact W|].
    rewrite R, K in C. left. destruct W as [(W1 & W2 & W3)|W]; [congruence|]. rewrite C, app_nil_r in W. auto.
  - match type of E with (if ?b then _ else _) = _ => destruct b end; [|discriminate E]. apply some_inj in E; subst s'. exact W.
  - destruct fl; [|discriminate E]. destruct dn as [|b dn]; [discriminate E|]. destruct (push0 rd b); apply some_inj in E; subst s'; exact W.
  - apply some_inj in E; subst s'. exact W.
Qed.
Lemma resp_grows o s s' : lg_step o s = Some s' -> lprefix (lg_resp s) (lg_resp s').
Proof.
  intros E. destruct s as [w se fl lo up v rs dn rd g].
  destruct o as [bs| |n| | |bs| |]; cbn [lg_step] in E; unfold lg_busy, set_srv in E; cbn [lg_wait lg_srv lg_sent lg_up lg_down lg_resp lg_rd lg_got lg_lost lg_flight] in E |- *;
    repeat match type of E with
    | (if ?b then _ else _) = _ => destruct b; try discriminate E
    | match ?b with _ => _ end = _ => destruct b; try discriminate E
    end; apply some_inj in E; subst s'; cbn [lg_resp]; try (exists []; rewrite app_nil_r; reflexivity). exists [bs]. reflexivity.
Qed.
Lemma resp_run ops : forall s s', lg_run ops s = Some s' -> lprefix (lg_resp s) (lg_resp s').
Proof.
  induction ops as [|o ops IH]; intros s s' E; cbn [lg_run] in E; [apply some_inj in E; subst; exists []; rewrite app_nil_r; reflexivity|].
  destruct (lg_step o s) as [s1|] eqn:S1; [|discriminate]. destruct (resp_grows _ _ _ S1) as [a Ha], (IH _ _ E) as [b Hb]. exists (a ++ b). rewrite Hb, Ha, app_assoc. reflexivity.
Qed.
Lemma fits_back ops s s' : lg_run ops s = Some s' -> lfits s' -> lfits s.
Proof. intros E A. destruct (resp_run _ _ _ E) as [a Ha]. unfold lfits in *. rewrite Ha in A. apply Forall_app in A. tauto. Qed.
Lemma w_run ops : forall s s', l_inv s -> l_winv s -> whole ops s -> lg_run ops s = Some s' -> lfits s' -> l_winv s'.
Proof.
  induction ops as [|o ops IH]; intros s s' J W H E A; cbn [lg_run whole] in *; [apply some_inj in E; subst; exact W|].
  destruct H as [C H]. destruct (lg_step o s) as [s1|] eqn:S1; [|discriminate].
  assert (A0 : lfits s). { apply (fits_back (o :: ops) s s'); [|exact A]. cbn [lg_run]. rewrite S1. exact E. }
  apply (IH s1); auto; [exact (l_inv_step _ _ _ J S1)|exact (w_step o s s1 J A0 W C S1)].
Qed.
Lemma w_reach ops s : lreach ops s -> whole ops leg0 -> lfits s -> l_winv s.
Proof. intros R H A. apply (w_run ops leg0 s l_inv0); auto. left. repeat split; reflexivity. Qed.
Lemma whole_lemma ops s : lreach ops s -> whole ops leg0 -> lfits s -> lprefix (v_calls (lg_srv s)) (lg_sent s).
Proof. intros R H A. destruct (w_reach _ _ R H A) as [(W & _)|W]; [exists []; rewrite app_nil_r; exact W|eexists; exact W]. Qed.
Lemma own_lemma ops s k m : lreach ops s -> whole ops leg0 -> lfits s -> nth_error (lg_got s) k = Some m ->
  exists req, nth_error (asked_for false ops) k = Some req /\ nth_error (v_calls (lg_srv s)) k = Some req /\ nth_error (lg_resp s) k = Some m.
Proof.
  intros R H A G. destruct (answers_lemma _ _ _ _ R A G) as (K & p & P). exists p. split; [|auto].
  destruct (whole_lemma _ _ R H A) as [x X]. destruct (order_lemma _ _ R) as [[y Y] _].
  assert (L : k < length (v_calls (lg_srv s))) by (apply nth_error_Some; congruence).
  rewrite Y, X, <- app_assoc, nth_error_app1 by exact L. exact P.
Qed.

(** ** Reading responses *)
Lemma push0_inl r b r' : push0 r b = inl r' -> r' <> SHdr [].
Proof.
  unfold push0. destruct r as [g|n g].
  - destruct (len (g ++ [b]) <? 16)%Z; [|destruct (0 <? rd32 0 (g ++ [b]))%Z]; intros E; inversion E; [|discriminate]. destruct g; discriminate.
  - destruct (len (g ++ [b]) <? n)%Z; intros E; inversion E. discriminate.
Qed.
Lemma feed0_none bs : forall r, feed0 r bs = (SHdr [], []) -> bs = [].
Proof.
  induction bs as [|b bs IH]; intros r E; [reflexivity|]. exfalso. cbn [feed0] in E. destruct (push0 r b) as [r'|m] eqn:P.
  - pose proof (IH _ E) as N. subst bs. cbn [feed0] in E. apply (push0_inl _ _ _ P). congruence.
  - destruct (feed0 (SHdr []) bs); discriminate E.
Qed.
Lemma read_one d : forall r m w se lo up v rs g, feed0 r d = (SHdr [], [m]) ->
  exists k, lg_run (l_bytes k) (Leg w se true lo up v rs d r g) = Some (Leg w se false lo up v rs [] (SHdr []) (g ++ [m])).
Proof.
  induction d as [|b d IH]; intros r m w se lo up v rs g E; [discriminate E|]. cbn [feed0] in E. destruct (push0 r b) as [r'|m'] eqn:P.
  - destruct (IH _ _ w se lo up v rs g E) as [k K]. exists (S k). cbn [l_bytes repeat lg_run lg_step lg_flight lg_down lg_rd lg_wait lg_sent lg_lost lg_up lg_srv lg_resp lg_got].
    rewrite P. exact K.
  - destruct (feed0 (SHdr []) d) as [r1 ms] eqn:D. inversion E; subst. exists 1. pose proof (feed0_none _ _ D). subst d.
    cbn [l_bytes repeat lg_run lg_step lg_flight lg_down lg_rd lg_wait lg_sent lg_lost lg_up lg_srv lg_resp lg_got]. rewrite P. reflexivity.
Qed.
Lemma bytes_calm k : lcalm (l_bytes k).
Proof. unfold lcalm, l_bytes. apply Forall_forall. intros o H. apply repeat_spec in H. subst o. exact Logic.I. Qed.
Lemma lg_run_app a : forall b s, lg_run (a ++ b) s = match lg_run a s with Some s' => lg_run b s' | None => None end.
Proof. induction a as [|o a IH]; intros b s; cbn [app lg_run]; [reflexivity|]. destruct (lg_step o s); [apply IH|reflexivity]. Qed.

Lemma run_cons o l s s' : lg_step o s = Some s' -> lg_run (o :: l) s = lg_run l s'.
Proof. intros E. cbn [lg_run]. rewrite E. reflexivity. Qed.
Lemma st_read w se fl lo up v rs dn rd g : length (v_calls v) <= length rs ->
  lg_step LRead (Leg w se fl lo up v rs dn rd g) = Some (Leg w se fl lo up (v0_step VRead v) rs dn rd g).
Proof. intros L. cbn [lg_step]. unfold lg_busy, set_srv. cbn [lg_srv lg_resp lg_lost lg_wait lg_sent lg_flight lg_up lg_down lg_rd lg_got]. destruct (Nat.ltb_spec (length rs) (length (v_calls v))); [lia|reflexivity]. Qed.
Lemma st_handle w se fl lo up v rs dn rd g : length (v_calls v) <= length rs ->
  lg_step LHandle (Leg w se fl lo up v rs dn rd g) = Some (Leg w se fl lo up (v0_step VHandle v) rs dn rd g).
Proof. intros L. cbn [lg_step]. unfold lg_busy, set_srv. cbn [lg_srv lg_resp lg_lost lg_wait lg_sent lg_flight lg_up lg_down lg_rd lg_got]. destruct (Nat.ltb_spec (length rs) (length (v_calls v))); [lia|reflexivity]. Qed.
Lemma st_answer bs w se fl lo up v rs dn rd g : length rs < length (v_calls v) ->
  lg_step (LAnswer bs) (Leg w se fl lo up v rs dn rd g) = Some (Leg w se fl lo up v (rs ++ [bs]) (dn ++ frame0 bs) rd g).
Proof. intros L. cbn [lg_step]. unfold lg_busy. cbn [lg_srv lg_resp lg_lost lg_wait lg_sent lg_flight lg_up lg_down lg_rd lg_got]. destruct (Nat.ltb_spec (length rs) (length (v_calls v))); [reflexivity|lia]. Qed.
Lemma st_arrive w se fl lo up v rs dn rd g n :
  lg_step (LArrive n) (Leg w se fl lo up v rs dn rd g) = Some (Leg w se fl lo (skipn n up) (v0_step (VArrive (firstn n up)) v) rs dn rd g).
Proof. reflexivity. Qed.

(** ** A torn request moves all later answers *)
Definition l_rest (sent : list (list Z)) (q : list Z) (calls resps : list (list Z)) : leg :=
  Leg [] sent false false q (V0 [] [] None calls) resps [] (SHdr []) resps.
Lemma shift_step f sent q calls r : lshort f -> q <> [] -> length q <= max_length ->
  exists ops, lg_run ops (l_rest sent q calls (map f calls)) = Some (l_rest (sent ++ [r]) r (calls ++ [q]) (map f (calls ++ [q]))).
Proof.
  intros Hf N Q. assert (FR : feed0 (SHdr []) (frame0 (f q)) = (SHdr [], [f q])).
  { rewrite <- (app_nil_r (frame0 (f q))), frame0_read by apply Hf. reflexivity. }
  destruct (read_one _ _ _ [] (sent ++ [r]) false r (V0 [] [] None (calls ++ [q])) (map f calls ++ [f q]) (map f calls) FR) as [k K].
  exists ([LCall r; LArrive (length q); LRead; LHandle; LAnswer (f q); LSend] ++ l_bytes k).
  - rewrite lg_run_app. unfold l_rest.
    assert (E : lg_run [LCall r; LArrive (length q); LRead; LHandle; LAnswer (f q); LSend] (Leg [] sent false false q (V0 [] [] None calls) (map f calls) [] (SHdr []) (map f calls)) =
      Some (Leg [] (sent ++ [r]) true false r (V0 [] [] None (calls ++ [q])) (map f calls ++ [f q]) (frame0 (f q)) (SHdr []) (map f calls))).
    { rewrite (run_cons _ _ _ (Leg [r] sent false false q (V0 [] [] None calls) (map f calls) [] (SHdr []) (map f calls))) by reflexivity.
      erewrite run_cons by apply st_arrive. rewrite firstn_all, skipn_all. change (v0_step (VArrive q) (V0 [] [] None calls)) with (V0 q [] None calls).
      erewrite run_cons by (apply st_read; cbn [v_calls]; rewrite map_length; lia). rewrite v0_read_all by assumption.
      erewrite run_cons by (apply st_handle; cbn [v_calls]; rewrite map_length; lia).
      erewrite run_cons by (apply st_answer; cbn [v0_step v_read v_sock v_calls]; rewrite map_length, app_length; cbn [length]; lia). reflexivity. }
    rewrite E, K, map_app. reflexivity.
Qed.
Lemma shift_run f reqs : forall sent q calls, lshort f -> Forall (fun p => p <> [] /\ length p <= max_length) (q :: reqs) ->
  exists ops q', lg_run ops (l_rest sent q calls (map f calls)) = Some (l_rest (sent ++ reqs) q' (calls ++ removelast (q :: reqs)) (map f (calls ++ removelast (q :: reqs)))).
Proof.
  induction reqs as [|r reqs IH]; intros sent q calls Hf A; inversion A as [|? ? [N Q] A']; subst.
  - exists [], q. cbn [removelast lg_run]. rewrite !app_nil_r. reflexivity.
  - destruct (shift_step f sent q calls r Hf N Q) as [o1 E1]. destruct (IH (sent ++ [r]) r (calls ++ [q]) Hf A') as (o2 & q' & E2).
    exists (o1 ++ o2), q'. rewrite lg_run_app, E1, E2. change (removelast (q :: r :: reqs)) with (q :: removelast (r :: reqs)). rewrite <- !app_assoc. reflexivity.
Qed.
Lemma shift_start f a b : lshort f -> a <> [] -> length a <= max_length -> exists ops, lg_run ops leg0 = Some (l_rest [a ++ b] b [a] [f a]).
Proof.
  intros Hf N Q. assert (FR : feed0 (SHdr []) (frame0 (f a)) = (SHdr [], [f a])).
  { rewrite <- (app_nil_r (frame0 (f a))), frame0_read by apply Hf. reflexivity. }
  destruct (read_one _ _ _ [] [a ++ b] false b (V0 [] [] None [a]) [f a] [] FR) as [k K].
  exists ([LCall (a ++ b); LSend; LArrive (length a); LRead; LHandle; LAnswer (f a)] ++ l_bytes k).
  rewrite lg_run_app.
  assert (E : lg_run [LCall (a ++ b); LSend; LArrive (length a); LRead; LHandle; LAnswer (f a)] leg0 =
    Some (Leg [] [a ++ b] true false b (V0 [] [] None [a]) [f a] (frame0 (f a)) (SHdr []) [])).
  { unfold leg0. cbn [lg_run lg_step lg_lost lg_wait lg_sent lg_flight lg_up lg_srv lg_resp lg_down lg_rd lg_got app orb].
    rewrite firstn_app, skipn_app, firstn_all, skipn_all, Nat.sub_diag. cbn [firstn skipn app]. rewrite app_nil_r.
    assert (A1 : v0_step (VArrive a) v0_init = V0 a [] None []) by reflexivity. rewrite A1. unfold lg_busy at 1, set_srv at 1.
    cbn [lg_srv lg_resp v_calls length Nat.ltb Nat.leb lg_lost lg_wait lg_sent lg_flight lg_up lg_down lg_rd lg_got].
    rewrite v0_read_all by assumption. reflexivity. }
  rewrite E, K. reflexivity.
Qed.
Lemma shift_lemma f a b reqs : lshort f -> Forall (fun p => p <> [] /\ length p <= max_length) (a :: b :: reqs) ->
  exists ops s, lreach ops s /\ asked_for false ops = (a ++ b) :: reqs /\ lg_lost s = false /\ v_calls (lg_srv s) = removelast (a :: b :: reqs) /\ lg_got s = map f (removelast (a :: b :: reqs)).
Proof.
  intros Hf A. inversion A as [|? ? [N Q] A']; subst. destruct (shift_start f a b Hf N Q) as [o1 E1].
  destruct (shift_run f reqs [a ++ b] b [a] Hf A') as (o2 & q' & E2). exists (o1 ++ o2). eexists.
  assert (R : lreach (o1 ++ o2) (l_rest ([a ++ b] ++ reqs) q' ([a] ++ removelast (b :: reqs)) (map f ([a] ++ removelast (b :: reqs))))).
  { unfold lreach. rewrite lg_run_app, E1. exact E2. }
  split; [exact R|]. destruct (order_lemma _ _ R) as [_ O]. split; [rewrite (O eq_refl); apply app_nil_r|]. split; [reflexivity|]. split; reflexivity.
Qed.

(** ** Every call can be answered *)
Definition good_run (ops : list lop) (s s' : leg) : Prop := lg_run ops s = Some s' /\ whole ops s /\ lcalm ops.
Lemma gr_nil s : good_run [] s s.
Proof. repeat split; constructor. Qed.
Lemma gr_cons o ops s s1 s' : lg_step o s = Some s1 -> l_cut o s -> lcalm [o] -> good_run ops s1 s' -> good_run (o :: ops) s s'.
Proof.
  intros E C K (R & W & Q). split; [rewrite (run_cons _ _ _ _ E); exact R|]. split.
  - cbn [whole]. rewrite E. split; [exact C|exact W].
  - inversion K; subst. constructor; auto.
Qed.
Lemma whole_app a : forall b s s1, lg_run a s = Some s1 -> whole a s -> whole b s1 -> whole (a ++ b) s.
Proof.
  induction a as [|o a IH]; intros b s s1 R A B; cbn [lg_run] in R; [apply some_inj in R; subst; exact B|].
  cbn [whole app] in *. destruct (lg_step o s) as [s2|]; [|discriminate]. destruct A as [A1 A2]. split; [exact A1|]. exact (IH b s2 s1 R A2 B).
Qed.
Lemma gr_app a b s s1 s' : good_run a s s1 -> good_run b s1 s' -> good_run (a ++ b) s s'.
Proof.
  intros (R1 & W1 & Q1) (R2 & W2 & Q2). split; [rewrite lg_run_app, R1; exact R2|]. split; [exact (whole_app a b s s1 R1 W1 W2)|]. apply Forall_app; auto.
Qed.
Lemma whole_bytes k : forall s s', lg_run (l_bytes k) s = Some s' -> whole (l_bytes k) s.
Proof.
  induction k as [|k IH]; intros s s' R; cbn [l_bytes repeat whole lg_run] in *; [exact Logic.I|]. split; [exact Logic.I|].
  destruct (lg_step LByte s) as [s1|]; [|discriminate]. exact (IH _ _ R).
Qed.
Lemma serve_read n : forall k q c w se fl lo rs dn rd g, k <> [] -> length k <= n -> length c <= length rs ->
  exists ops, good_run ops (Leg w se fl lo [] (V0 k q None c) rs dn rd g) (Leg w se fl lo [] (V0 [] [] None (c ++ [q ++ k])) rs dn rd g).
Proof.
  induction n as [|n IH]; intros k q c w se fl lo rs dn rd g N L B; [destruct k; [congruence|cbn in L; lia]|].
  assert (E1 : v0_step VRead (V0 k q None c) = V0 (skipn max_length k) q (Some (firstn max_length k)) c) by (destruct k; [congruence|reflexivity]).
  destruct (skipn max_length k) as [|b k'] eqn:K.
  - exists [LRead; LHandle]. eapply gr_cons; [apply st_read; exact B|exact Logic.I|repeat constructor|]. rewrite E1.
    eapply gr_cons; [apply st_handle; exact B|reflexivity|repeat constructor|]. cbn [v0_step v_read v_sock v_req v_calls].
    replace (firstn max_length k) with k by (rewrite <- (firstn_skipn max_length k) at 1; rewrite K, app_nil_r; reflexivity). apply gr_nil.
  - assert (L' : length (b :: k') <= n).
    { rewrite <- K, skipn_length. destruct max_length_pos as [x X]. rewrite X. lia. }
    destruct (IH (b :: k') (q ++ firstn max_length k) c w se fl lo rs dn rd g ltac:(discriminate) L' B) as [ops G].
    exists ([LRead; LHandle] ++ ops). eapply gr_app; [|rewrite <- app_assoc, <- K, firstn_skipn, K in G; exact G].
    eapply gr_cons; [apply st_read; exact B|exact Logic.I|repeat constructor|]. rewrite E1.
    eapply gr_cons; [apply st_handle; exact B|exact Logic.I|repeat constructor|]. cbn [v0_step v_read v_sock v_req v_calls]. apply gr_nil.
Qed.
Lemma serve v w se fl lo rs dn rd g : v_ok v -> l_held v <> [] -> length (v_calls v) <= length rs ->
  exists ops, good_run ops (Leg w se fl lo [] v rs dn rd g) (Leg w se fl lo [] (V0 [] [] None (v_calls v ++ [l_held v])) rs dn rd g).
Proof.
  destruct v as [k q r c]. intros [A B] H L. unfold l_held in *. cbn [v_read v_sock v_req v_calls] in *. destruct r as [x|].
  - destruct k as [|b k].
    + exists [LHandle]. eapply gr_cons; [apply st_handle; exact L|reflexivity|repeat constructor|]. cbn [v0_step v_read v_sock v_req v_calls]. rewrite app_nil_r. apply gr_nil.
    + destruct (serve_read (length (b :: k)) (b :: k) (q ++ x) c w se fl lo rs dn rd g ltac:(discriminate) (le_n _) L) as [ops G].
      exists (LHandle :: ops). eapply gr_cons; [apply st_handle; exact L|exact Logic.I|repeat constructor|]. cbn [v0_step v_read v_sock v_req v_calls]. rewrite <- app_assoc in G. exact G.
  - destruct k as [|b k]; [rewrite (B eq_refl eq_refl) in H; cbn in H; congruence|]. cbn [app] in *.
    apply (serve_read (length (b :: k)) (b :: k) q c w se fl lo rs dn rd g ltac:(discriminate) (le_n _) L).
Qed.
Definition l_clean (w se R : list (list Z)) : leg := Leg w se false false [] (V0 [] [] None se) R [] (SHdr []) R.
Lemma finish f w se rs dn rd g : lshort f -> let s := Leg w se true false [] (V0 [] [] None se) rs dn rd g in l_inv s -> lfits s ->
  exists ops, good_run ops s (l_clean w se (rs ++ map f (skipn (length rs) se))).
Proof.
  intros Hf s J A.
  assert (READ : forall rs dn, let s := Leg w se true false [] (V0 [] [] None se) rs dn rd g in l_inv s -> lfits s -> length rs = length se ->
    exists ops, good_run ops s (l_clean w se rs)).
  { clear s J A rs dn. intros rs dn s J A L. destruct (got_prefix s J A) as (ms & F & E). destruct J as (_ & _ & _ & _ & N & _). specialize (N eq_refl).
    cbn [s lg_sent lg_got lg_flight lg_resp lg_rd lg_down] in *. destruct ms as [|m [|m' ms]]; [| |].
    - rewrite E, app_length in L. cbn [length] in L. lia.
    - destruct (read_one dn rd m w se false [] (V0 [] [] None se) rs g F) as [k K]. exists (l_bytes k). rewrite <- E in K.
      split; [exact K|]. split; [exact (whole_bytes _ _ _ K)|apply bytes_calm].
    - rewrite E, app_length in L. cbn [length] in L. lia. }
  destruct J as [V J']. pose proof (conj V J') as J. destruct J' as (_ & _ & N & _). cbn [s lg_resp lg_srv v_calls] in N.
  destruct (Nat.eq_dec (length rs) (length se)) as [Q|Q].
  - rewrite Q, skipn_all. cbn [map]. rewrite app_nil_r. exact (READ rs dn J A Q).
  - assert (S1 : length (skipn (length rs) se) = 1) by (rewrite skipn_length; lia). destruct (skipn (length rs) se) as [|q [|? ?]]; try discriminate S1. cbn [map].
    assert (ST : lg_step (LAnswer (f q)) s = Some (Leg w se true false [] (V0 [] [] None se) (rs ++ [f q]) (dn ++ frame0 (f q)) rd g)) by (apply st_answer; cbn [v_calls]; lia).
    destruct (READ (rs ++ [f q]) (dn ++ frame0 (f q))) as [ops G].
    + exact (l_inv_step _ _ _ J ST).
    + unfold lfits in *. cbn [lg_resp s] in *. apply Forall_app. split; [exact A|]. repeat constructor. apply Hf.
    + rewrite app_length. cbn [length]. lia.
    + exists (LAnswer (f q) :: ops). eapply gr_cons; [exact ST|exact Logic.I|repeat constructor|exact G].
Qed.
Lemma v_empty v : v_ok v -> l_held v = [] -> v = V0 [] [] None (v_calls v).
Proof.
  destruct v as [k q r c]. intros [A _] H. unfold l_held in H. cbn [v_read v_sock v_req v_calls] in *. destruct r as [x|].
  - apply app_eq_nil in H. destruct H as [_ H]. apply app_eq_nil in H. destruct H as [H _]. exfalso. exact (A x eq_refl H).
  - apply app_eq_nil in H. destruct H as [-> H]. cbn [app] in H. rewrite H. reflexivity.
Qed.
Lemma round f s : lshort f -> l_inv s -> lfits s -> l_winv s -> lg_lost s = false -> lg_flight s = true -> Forall (fun p => p <> []) (lg_sent s) ->
  exists ops, good_run ops s (l_clean (lg_wait s) (lg_sent s) (lg_resp s ++ map f (skipn (length (lg_resp s)) (lg_sent s)))).
Proof.
  intros Hf J A W LO FL NE. destruct s as [w se fl lo up v rs dn rd g]. cbn [lg_srv lg_sent lg_wait lg_up lg_down lg_resp lg_rd lg_got lg_lost lg_flight] in *. subst fl lo.
  pose proof (proj1 J) as V. cbn [lg_srv] in V. destruct W as [(W1 & W2 & W3)|W]; cbn [lg_srv lg_sent lg_up] in *.
  - rewrite (v_empty v V W2) in *. cbn [v_calls] in W1. rewrite <- W1 in *. subst up. exact (finish f w se rs dn rd g Hf J A).
  - pose proof (got_le _ J A) as GL. assert (HN : l_held v ++ up <> []).
    { rewrite W in NE. apply Forall_app in NE. destruct NE as [_ NE]. inversion NE; auto. }
    assert (L : length (v_calls v) <= length rs).
    { destruct J as (_ & _ & _ & _ & F & _). specialize (F eq_refl). cbn [lg_sent lg_got lg_flight lg_resp] in *. rewrite W, app_length in F. cbn [length] in F. lia. }
    pose proof (st_arrive w se true false up v rs dn rd g (length up)) as S1. rewrite firstn_all, skipn_all in S1.
    destruct (held_arrive up v) as [H1 H2]. pose proof (v_ok_step (VArrive up) v V) as V1.
    destruct (serve (v0_step (VArrive up) v) w se true false rs dn rd g V1) as [o1 G1]; [rewrite H1; exact HN|rewrite H2; exact L|]. rewrite H1, H2, <- W in G1.
    assert (G0 : good_run (LArrive (length up) :: o1) (Leg w se true false up v rs dn rd g) (Leg w se true false [] (V0 [] [] None se) rs dn rd g)).
    { eapply gr_cons; [exact S1|exact Logic.I|repeat constructor|exact G1]. }
    destruct (finish f w se rs dn rd g Hf) as [o2 G2]; [exact (l_inv_run _ _ _ J (proj1 G0))|exact A|].
    exists ((LArrive (length up) :: o1) ++ o2). exact (gr_app _ _ _ _ _ G0 G2).
Qed.
Lemma clean_of s : l_inv s -> lfits s -> l_winv s -> lg_lost s = false -> lg_flight s = false -> s = l_clean (lg_wait s) (lg_sent s) (lg_resp s) /\ length (lg_resp s) = length (lg_sent s).
Proof.
  intros J A W LO FL. pose proof (got_le _ J A) as GL. destruct (got_prefix _ J A) as (ms & FE & E).
  destruct J as (V & _ & (c & C1 & C2) & N & F & _). destruct s as [w se fl lo up v rs dn rd g].
  unfold l_winv in W. cbn [lg_srv lg_sent lg_wait lg_up lg_down lg_resp lg_rd lg_got lg_lost lg_flight] in *. subst fl lo. specialize (F eq_refl).
  destruct W as [(W1 & W2 & W3)|W]; [|rewrite W, app_length in F; cbn [length] in F; lia].
  rewrite <- W1 in N. assert (ms = []) by (destruct ms; [reflexivity|rewrite E, app_length in N; cbn [length] in N; lia]). subst ms. rewrite app_nil_r in E. subst rs up.
  pose proof (feed0_none _ _ FE). subst dn. cbn [feed0] in FE. inversion FE. subst rd. split; [|lia].
  rewrite (v_empty v V W2), <- W1. reflexivity.
Qed.
Lemma all_clean f w : forall se R, lshort f -> l_inv (l_clean w se R) -> lfits (l_clean w se R) -> length R = length se -> Forall (fun p => p <> []) (se ++ w) ->
  exists ops, good_run ops (l_clean w se R) (l_clean [] (se ++ w) (R ++ map f w)).
Proof.
  induction w as [|b w IH]; intros se R Hf J A L NE; [exists []; cbn [map]; rewrite !app_nil_r; apply gr_nil|].
  assert (ST : lg_step LSend (l_clean (b :: w) se R) = Some (Leg w (se ++ [b]) true false b (V0 [] [] None se) R [] (SHdr []) R)) by reflexivity.
  assert (W : l_winv (l_clean (b :: w) se R)) by (left; repeat split; reflexivity).
  assert (NE' : Forall (fun p => p <> []) (se ++ [b])).
  { replace (se ++ b :: w) with ((se ++ [b]) ++ w) in NE by (rewrite <- app_assoc; reflexivity). apply Forall_app in NE. tauto. }
  pose proof (l_inv_step _ _ _ J ST) as J1. pose proof (w_step LSend _ _ J A W Logic.I ST) as W1.
  destruct (round f _ Hf J1 A W1 eq_refl eq_refl NE') as [o1 G1]. cbn [lg_wait lg_sent lg_resp] in G1.
  rewrite L, skipn_app, skipn_all, Nat.sub_diag in G1. cbn [skipn app map] in G1.
  assert (G0 : good_run (LSend :: o1) (l_clean (b :: w) se R) (l_clean w (se ++ [b]) (R ++ [f b]))) by (eapply gr_cons; [exact ST|exact Logic.I|repeat constructor|exact G1]).
  destruct (IH (se ++ [b]) (R ++ [f b]) Hf) as [o2 G2].
  - exact (l_inv_run _ _ _ J (proj1 G0)).
  - unfold lfits in *. cbn [l_clean lg_resp] in *. apply Forall_app. split; [exact A|]. repeat constructor. apply Hf.
  - rewrite !app_length. cbn. lia.
  - rewrite <- app_assoc. exact NE.
  - exists ((LSend :: o1) ++ o2). cbn [map]. rewrite <- !app_assoc in G2. exact (gr_app _ _ _ _ _ G0 G2).
Qed.
Lemma asked_in ops bs : forall lost, In bs (asked_for lost ops) -> In (LCall bs) ops.
Proof.
  induction ops as [|o ops IH]; intros lost H; [destruct H|]. destruct o; cbn [asked_for] in H; try (right; exact (IH _ H)).
  apply in_app_or in H. destruct H as [H|H]; [|right; exact (IH _ H)]. destruct lost; [destruct H|]. destruct H as [->|[]]. left. reflexivity.
Qed.
Lemma live_lemma f ops s : lshort f -> lreach ops s -> whole ops leg0 -> lfull ops -> lfits s -> lg_lost s = false ->
  exists ops' s', lcalm ops' /\ whole (ops ++ ops') leg0 /\ lreach (ops ++ ops') s' /\
    v_calls (lg_srv s') = asked_for false ops /\ lg_got s' = lg_resp s ++ map f (skipn (length (lg_resp s)) (asked_for false ops)).
Proof.
  intros Hf R H NE A LO. pose proof (l_inv_reach _ _ R) as J. pose proof (w_reach _ _ R H A) as W. destruct (order_lemma _ _ R) as [_ O]. specialize (O LO). rewrite O.
  assert (NE' : Forall (fun p => p <> []) (lg_sent s ++ lg_wait s)).
  { rewrite <- O. apply Forall_forall. intros p P. apply NE, (asked_in _ _ false), P. }
  assert (X : exists ops', good_run ops' s (l_clean [] (lg_sent s ++ lg_wait s) (lg_resp s ++ map f (skipn (length (lg_resp s)) (lg_sent s ++ lg_wait s))))).
  { destruct (lg_flight s) eqn:FL.
    - destruct (round f s Hf J A W LO FL) as [o1 G1]; [apply Forall_app in NE'; tauto|].
      assert (J1 := l_inv_run _ _ _ J (proj1 G1)). assert (LE : length (lg_resp s) <= length (lg_sent s)).
      { destruct J as (_ & _ & _ & N & _). destruct W as [(W1 & _)|W1]; rewrite W1, ?app_length; lia. }
      destruct (all_clean f _ _ _ Hf J1) as [o2 G2].
      + unfold lfits in *. cbn [l_clean lg_resp]. apply Forall_app. split; [exact A|]. apply Forall_map, Forall_forall. intros p _. apply Hf.
      + rewrite app_length, map_length, skipn_length. lia.
      + exact NE'.
      + exists (o1 ++ o2). rewrite <- app_assoc, <- map_app in G2.
        replace (skipn (length (lg_resp s)) (lg_sent s ++ lg_wait s)) with (skipn (length (lg_resp s)) (lg_sent s) ++ lg_wait s).
        * exact (gr_app _ _ _ _ _ G1 G2).
        * rewrite skipn_app. replace (length (lg_resp s) - length (lg_sent s)) with 0 by lia. reflexivity.
    - destruct (clean_of s J A W LO FL) as [E L]. destruct (all_clean f (lg_wait s) (lg_sent s) (lg_resp s) Hf) as [o G]; [rewrite <- E; exact J|exact A|exact L|exact NE'|].
      exists o. rewrite <- E in G. rewrite L, skipn_app, skipn_all, Nat.sub_diag. exact G. }
  destruct X as (o & R2 & W2 & Q2). exists o. eexists. split; [exact Q2|]. split; [exact (whole_app _ _ _ _ R H W2)|]. split; [unfold lreach in *; rewrite lg_run_app, R; exact R2|].
  split; reflexivity.
Qed.

(** ** An empty request *)
Definition l_stuck (calls g : list (list Z)) (s : leg) : Prop :=
  lg_srv s = V0 [] [] None calls /\ lg_up s = [] /\ length (lg_resp s) = length calls /\ lg_down s = [] /\ lg_got s = g /\ (lg_flight s = true \/ lg_lost s = true).
Lemma stuck_step calls g o s s' : l_stuck calls g s -> lg_step o s = Some s' -> l_stuck calls g s'.
Proof.
  destruct s as [w se fl lo up v rs dn rd g0]. unfold l_stuck. cbn [lg_srv lg_sent lg_wait lg_up lg_down lg_resp lg_rd lg_got lg_lost lg_flight].
  intros (-> & -> & L & -> & -> & F) E. destruct o as [bs| |n| | |bs| |]; cbn [lg_step lg_wait lg_lost lg_flight lg_down] in E.
  - destruct lo; apply some_inj in E; subst s'; repeat split; auto.
  - destruct w as [|b w]; [discriminate|]. destruct fl; [discriminate E|]. destruct lo; [discriminate E|]. destruct F; discriminate.
  - apply some_inj in E; subst s'. cbn [lg_srv lg_sent lg_wait lg_up lg_down lg_resp lg_rd lg_got lg_lost lg_flight]. rewrite firstn_nil, skipn_nil. repeat split; auto.
  - match type of E with (if ?b then _ else _) = _ => destruct b end; [discriminate E|]. apply some_inj in E; subst s'. repeat split; auto.
  - match type of E with (if ?b then _ else _) = _ => destruct b end; [discriminate E|]. apply some_inj in E; subst s'. repeat split; auto.
  - unfold lg_busy in E. cbn [lg_resp lg_srv v_calls] in E. rewrite L, Nat.ltb_irrefl in E. discriminate E.
  - destruct fl; discriminate E.
  - apply some_inj in E; subst s'. repeat split; auto.
Qed.
Lemma stuck_run calls g ops : forall s s', l_stuck calls g s -> lg_run ops s = Some s' -> l_stuck calls g s'.
Proof.
  induction ops as [|o ops IH]; intros s s' H E; cbn [lg_run] in E; [apply some_inj in E; subst; exact H|].
  destruct (lg_step o s) as [s1|] eqn:S1; [|discriminate]. apply (IH s1); [exact (stuck_step _ _ o s s1 H S1)|exact E].
Qed.
Lemma empty_lemma ops s w ops' s' : lreach ops s -> whole ops leg0 -> lfits s -> lg_flight s = false -> lg_wait s = [] :: w ->
  lg_run (LSend :: ops') s = Some s' -> lg_got s' = lg_got s /\ v_calls (lg_srv s') = v_calls (lg_srv s).
Proof.
  intros R H A FL WA E. cbn [lg_run] in E. destruct (lg_step LSend s) as [s1|] eqn:S1; [|discriminate].
  assert (LO : lg_lost s = false). { cbn [lg_step] in S1. rewrite WA, FL in S1. destruct (lg_lost s); [discriminate S1|reflexivity]. }
  destruct (clean_of s (l_inv_reach _ _ R) A (w_reach _ _ R H A) LO FL) as [C L].
  rewrite C in S1. rewrite WA in S1. cbn [lg_step l_clean lg_wait lg_flight lg_lost orb lg_sent lg_up lg_srv lg_resp lg_down lg_rd lg_got app] in S1. apply some_inj in S1.
  assert (K : l_stuck (lg_sent s) (lg_resp s) s1) by (subst s1; repeat split; auto).
  pose proof (stuck_run _ _ _ _ _ K E) as (K1 & _ & _ & _ & K2 & _). rewrite K1, K2, C. split; reflexivity.
Qed.
Lemma own_refuted : ~ (forall ops s k m, lreach ops s -> lfull ops -> lfits s -> nth_error (lg_got s) k = Some m ->
  exists req, nth_error (asked_for false ops) k = Some req /\ nth_error (v_calls (lg_srv s)) k = Some req).
Proof.
  intros H. assert (HH : forall s, lg_run (l_torn [1%Z] [2%Z; 3%Z] [4%Z; 5%Z] [7%Z] [8%Z; 9%Z]) leg0 = Some s ->
    (lg_got s, v_calls (lg_srv s), lg_resp s) = ([[7]; [8; 9]]%Z, [[1]; [2; 3]]%Z, [[7]; [8; 9]]%Z)).
  { vm_compute. intros s E. inversion E. reflexivity. }
  destruct (lg_run (l_torn [1%Z] [2%Z; 3%Z] [4%Z; 5%Z] [7%Z] [8%Z; 9%Z]) leg0) as [s|] eqn:R; [|vm_compute in R; discriminate R].
  specialize (HH s eq_refl). injection HH as G C P.
  destruct (H (l_torn [1%Z] [2%Z; 3%Z] [4%Z; 5%Z] [7%Z] [8%Z; 9%Z]) s 0 [7%Z]) as (req & Q1 & Q2).
  - exact R.
  - intros bs I. vm_compute in I. repeat destruct I as [I|I]; try discriminate I; try (injection I as <-; discriminate); destruct I.
  - unfold lfits. rewrite P. repeat constructor; cbn; lia.
  - rewrite G. reflexivity.
  - rewrite C in Q2. vm_compute in Q1, Q2. congruence.
Qed.

(** ** Examples *)
Lemma echo_short : lshort l_echo.
Proof. intros p. unfold l_echo. pose proof (firstn_le_length 2 p). pose proof (firstn_length 2 p). lia. Qed.
Lemma call_ok : exists s, lreach (l_call [1; 2; 3] [7])%Z s /\ lfits s /\ nth_error (lg_got s) 0 = Some [7]%Z.
Proof. eexists. split; [vm_compute; reflexivity|]. split; [repeat constructor|reflexivity]. Qed.
Transparent max_length.
Lemma two_ok : exists s, lreach l_two s /\ whole l_two leg0 /\ lfits s /\ v_calls (lg_srv s) = [[1; 2]]%Z.
Proof. eexists. split; [vm_compute; reflexivity|]. split; [vm_compute; repeat split|]. split; [repeat constructor|reflexivity]. Qed.
Lemma lossy_ok : exists s, lreach l_lossy s /\ whole l_lossy leg0 /\ lfits s /\ nth_error (lg_got s) 0 = Some [7]%Z.
Proof. eexists. split; [vm_compute; reflexivity|]. split; [vm_compute; repeat split|]. split; [repeat constructor|reflexivity]. Qed.
Lemma two_live : lshort l_echo /\ exists s, lreach l_two s /\ whole l_two leg0 /\ lfull l_two /\ lfits s /\ lg_lost s = false /\ lg_wait s = [[3]]%Z /\ lg_got s = [].
Proof.
  split; [exact echo_short|]. eexists. split; [vm_compute; reflexivity|]. split; [vm_compute; repeat split|]. split.
  { intros bs H. cbn in H. repeat destruct H as [H|H]; try discriminate H; try (injection H as <-; discriminate); destruct H. }
  split; [repeat constructor|]. repeat split; reflexivity.
Qed.
Lemma shifted_ok : lshort l_echo /\ map l_echo (removelast [[1]; [2; 3]; [4; 4; 4]; [5]]%Z) = [[1]; [2; 3]; [4; 4]]%Z.
Proof. split; [exact echo_short|reflexivity]. Qed.
Lemma void_ok : exists s, lreach l_void s /\ whole l_void leg0 /\ lfits s /\ lg_flight s = false /\ lg_wait s = [] :: [[2]%Z] /\ lg_run [LSend; LLost] s <> None.
Proof. eexists. split; [vm_compute; reflexivity|]. split; [vm_compute; repeat split|]. split; [repeat constructor|]. repeat split; vm_compute; discriminate. Qed.
