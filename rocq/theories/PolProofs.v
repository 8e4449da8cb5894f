From Coq Require Import Lia Bool Arith Sorted.
From Verif Require Import Base Sample PolModel PolSpec.

Lemma run_app a b s : po_run (a ++ b) s = (let (s1, e1) := po_run a s in let (s2, e2) := po_run b s1 in (s2, e1 ++ e2)).
Proof.
  revert s. induction a as [|o a IH]; intros s; cbn [po_run app]; [destruct (po_run b s); reflexivity|].
  destruct (po_step o s) as [s1 e1]. rewrite IH. destruct (po_run a s1) as [s2 e2]. destruct (po_run b s2) as [s3 e3]. rewrite app_assoc. reflexivity.
Qed.
Lemma ran_snoc ops o s' evs' : ran (ops ++ [o]) s' evs' <-> exists s evs e, ran ops s evs /\ po_step o s = (s', e) /\ evs' = evs ++ e.
Proof.
  unfold ran. rewrite run_app. destruct (po_run ops pool0) as [s1 e1] eqn:E. cbn [po_run]. destruct (po_step o s1) as [s2 e2] eqn:E2. rewrite app_nil_r. split.
  - intros H. injection H as <- <-. exists s1, e1, e2. auto.
  - intros (s & evs & e & H & K & ->). injection H as <- <-. rewrite E2 in K. injection K as <- <-. reflexivity.
Qed.
Lemma ran_fun ops s evs s' evs' : ran ops s evs -> ran ops s' evs' -> s = s' /\ evs = evs'.
Proof. unfold ran. intros -> H. injection H; auto. Qed.
Lemma ran_any ops : exists s evs, ran ops s evs.
Proof. unfold ran. destruct (po_run ops pool0) as [s e]. eauto. Qed.
Lemma ran_app a b s' evs' : ran (a ++ b) s' evs' -> exists s evs e, ran a s evs /\ evs' = evs ++ e.
Proof. unfold ran. rewrite run_app. destruct (po_run a pool0) as [s1 e1]. destruct (po_run b s1) as [s2 e2]. intros H. injection H as <- <-. eauto 8. Qed.

(** ** One step, seen by one observer *)
Definition at_time (o : poop) : option Z := match o with PoBody _ _ t | PoCheck _ t | PoWait _ _ t => Some t | _ => None end.
Inductive turn (f : text) (op : poop) (o : obs) : option obs -> list poev -> Prop :=
| t_same : turn f op o (Some o) []
| t_gone : ob_alive o = false \/ op = PoStop -> turn f op o None []
| t_call t : at_time op = Some t -> ob_alive o = true -> turn f op o (Some (ob_reset t o)) [PRet f t]
| t_again t to : at_time op = Some t -> ob_alive o = false -> turn f op o (Some (ob_restart to o)) [PRet f t]
| t_on t ph : op = PoCheck f t -> ob_ph o = PhCheck -> (t - ob_last o < ob_to o)%Z -> ph = PhWait \/ ph = PhHave -> turn f op o (Some (ob_at ph o)) []
| t_off t : op = PoCheck f t -> ob_ph o = PhCheck -> (ob_to o <= t - ob_last o)%Z \/ ob_stop o = true -> turn f op o (Some (ob_at PhLeave o)) []
| t_none t : at_time op = Some t -> ob_ph o = PhWait -> turn f op o (Some (ob_at PhCheck o)) []
| t_sig t : at_time op = Some t -> ob_ph o = PhWait -> turn f op o (Some (Obs (ob_alive o) (ob_stop o) t (ob_to o) PhHave true (ob_clock o) (ob_run o))) [PSig f t]
| t_last : ob_ph o = PhHave -> ob_stop o = true -> turn f op o (Some (ob_at PhLeave o)) []
| t_old : ob_ph o = PhHave -> turn f op o (Some (Obs (ob_alive o) (ob_stop o) (ob_last o) (ob_to o) PhCheck false (ob_clock o) (ob_run o))) []
| t_new c : ob_ph o = PhHave -> (ob_clock o < c)%Z -> turn f op o (Some (Obs (ob_alive o) (ob_stop o) (ob_last o) (ob_to o) PhCheck false c (ob_run o))) [PHand f (ob_run o) c]
| t_busy : ob_ph o = PhHave -> turn f op o (Some (ob_at PhCheck o)) []
| t_end : ob_ph o = PhLeave -> turn f op o (Some (Obs false (ob_stop o) (ob_last o) (ob_to o) PhDone (ob_has o) (ob_clock o) (ob_run o))) [].

Definition about (f : text) (e : poev) : bool := match e with PRet g _ | PSig g _ | PHand g _ _ => eqb g f | PFail _ => false end.
Definition own (f : text) (evs : list poev) : list poev := filter (about f) evs.

Lemma get_set f o s g : aget g (pl_map (po_set f o s)) = if eqb g f then Some o else aget g (pl_map s).
Proof. unfold po_set. cbn. apply aget_aset. Qed.
Lemma get_filter {V} (p : text * V -> bool) (l : list (text * V)) f v : aget f l = Some v -> aget f (filter p l) = Some v \/ (aget f (filter p l) = None /\ p (f, v) = false) \/ ~ NoDup (map fst l).
Proof.
  induction l as [|[g w] l IH]; [discriminate|]. cbn. destruct (eqb f g) eqn:E.
  - apply eqb_true in E. subst g. intros H. injection H as ->. destruct (p (f, v)) eqn:P; cbn; [rewrite eqb_refl; auto|].
    destruct (aget f (filter p l)) eqn:F; [|auto]. right. right. intros N. inversion N as [|? ? X Y]. apply X. apply aget_in in F. apply filter_In in F. destruct F as [F _]. apply (in_map fst) in F. exact F.
  - intros H. destruct (IH H) as [X|[[X Y]|X]].
    + left. destruct (p (g, w)); cbn; [rewrite E|]; exact X.
    + right. left. split; [|exact Y]. destruct (p (g, w)); cbn; [rewrite E|]; exact X.
    + right. right. intros N. apply X. inversion N; assumption.
Qed.
Definition nodup (s : pool) : Prop := NoDup (map fst (pl_map s)).
Lemma nodup_step o s : nodup s -> nodup (fst (po_step o s)).
Proof.
  intros N. assert (SET : forall f x, nodup (po_set f x s)) by (intros f x; unfold nodup, po_set; cbn; apply nodup_aset; exact N).
  destruct o; cbn [po_step].
  - exact N.
  - destruct (pl_on s); [constructor|exact N].
  - destruct f; [exact N|]. destruct (pl_on s); exact N.
  - destruct (existsb _ _); [|exact N]. unfold po_observe. destruct (aget f (pl_map s)); apply SET.
  - destruct (pl_on s); [|exact N]. unfold nodup in *. cbn. clear SET. induction (pl_map s) as [|[g w] l IH]; [exact N|]. cbn in *. inversion N as [|? ? X Y]. destruct (ob_alive w); cbn; [|auto].
    constructor; [|auto]. intros K. apply X. apply in_map_iff in K. destruct K as (z & <- & Z0). apply filter_In in Z0. apply in_map. tauto.
  - destruct (aget f (pl_map s)) as [x|]; [|exact N]. destruct (ob_ph x); try exact N. apply SET.
  - destruct (aget f (pl_map s)) as [x|]; [|exact N]. destruct (ob_ph x); try exact N. destruct sig; apply SET.
  - destruct (aget f (pl_map s)) as [x|]; [|exact N]. destruct (ob_ph x); try exact N. destruct (ob_stop x); [apply SET|]. destruct acc; [destruct (_ <=? _)%Z|]; apply SET.
  - destruct (aget f (pl_map s)) as [x|]; [|exact N]. destruct (ob_ph x); try exact N; apply SET.
Qed.
Lemma ran_nodup ops s evs : ran ops s evs -> nodup s.
Proof.
  revert s evs. induction ops as [|o ops IH] using rev_ind; intros s evs R; [unfold ran in R; cbn in R; injection R as <- <-; constructor|].
  apply ran_snoc in R. destruct R as (s1 & e1 & e & R & E & _). pose proof (nodup_step o s1 (IH _ _ R)) as N. rewrite E in N. exact N.
Qed.

Ltac own_ev := unfold own; cbn; rewrite ?eqb_refl; reflexivity.
Lemma turn_of op s f o : nodup s -> watches s f o -> turn f op o (aget f (pl_map (fst (po_step op s)))) (own f (snd (po_step op s))).
Proof.
  unfold watches. intros N W.
  assert (OTHER : forall g x, eqb g f = false -> aget f (pl_map (po_set g x s)) = Some o).
  { intros g x E. rewrite get_set. destruct (eqb f g) eqn:K; [apply eqb_true in K; subst g; rewrite eqb_refl in E; discriminate|exact W]. }
  assert (SELF : forall x, aget f (pl_map (po_set f x s)) = Some x) by (intros x; rewrite get_set, eqb_refl; reflexivity).
  destruct op as [| |g to|g to now| |g now|g sig now|g acc c|g]; cbn [po_step].
  - cbn. rewrite W. apply t_same.
  - destruct (pl_on s); cbn; [apply t_gone; auto|rewrite W; apply t_same].
  - destruct g as [|b g]; [cbn; rewrite W; apply t_same|]. destruct (pl_on s); cbn; rewrite W; apply t_same.
  - destruct (existsb _ _); [|cbn; rewrite W; apply t_same]. cbn [fst snd pl_map]. unfold po_observe. destruct (eqb g f) eqn:E.
    + apply eqb_true in E. subst g. rewrite W, SELF. unfold own. cbn. rewrite eqb_refl. destruct (ob_alive o) eqn:AL; [now apply t_call|now apply t_again].
    + unfold own. cbn. rewrite E. destruct (aget g (pl_map s)); rewrite OTHER by exact E; apply t_same.
  - destruct (pl_on s); [|cbn; rewrite W; apply t_same]. cbn. destruct (get_filter (fun x => ob_alive (snd x)) _ _ _ W) as [X|[[X Y]|X]]; [rewrite X; apply t_same|rewrite X; apply t_gone; auto|contradiction].
  - destruct (eqb g f) eqn:E.
    + apply eqb_true in E. subst g. rewrite W. destruct (ob_ph o) eqn:P; try (cbn; rewrite W; apply t_same).
      cbn [fst snd]. rewrite SELF. unfold own. cbn. destruct (now - ob_last o <? ob_to o)%Z eqn:L; [destruct (ob_stop o) eqn:Q|]; cbn.
      * eapply t_off; eauto.
      * apply Z.ltb_lt in L. eapply t_on; eauto. destruct (ob_has o); auto.
      * apply Z.ltb_ge in L. eapply t_off; eauto.
    + destruct (aget g (pl_map s)) as [x|]; [|cbn; rewrite W; apply t_same]. destruct (ob_ph x); cbn [fst snd]; rewrite ?OTHER, ?W by exact E; apply t_same.
  - destruct (eqb g f) eqn:E.
    + apply eqb_true in E. subst g. rewrite W. destruct (ob_ph o) eqn:P; try (cbn; rewrite W; apply t_same).
      destruct sig; cbn [fst snd]; rewrite SELF; unfold own; cbn; rewrite ?eqb_refl; [eapply t_sig|eapply t_none]; first [reflexivity|exact P].
    + destruct (aget g (pl_map s)) as [x|]; [|cbn; rewrite W; apply t_same]. destruct (ob_ph x); try (cbn; rewrite W; apply t_same). destruct sig; cbn [fst snd]; rewrite OTHER by exact E; unfold own; cbn; rewrite ?E; apply t_same.
  - destruct (eqb g f) eqn:E.
    + apply eqb_true in E. subst g. rewrite W. destruct (ob_ph o) eqn:P; try (cbn; rewrite W; apply t_same).
      destruct (ob_stop o) eqn:Q; [cbn [fst snd]; rewrite SELF; now apply t_last|]. destruct acc; [|cbn [fst snd]; rewrite SELF; now apply t_busy].
      destruct (c <=? ob_clock o)%Z eqn:L; cbn [fst snd]; rewrite SELF; unfold own; cbn; rewrite ?eqb_refl.
      * pose proof (t_old f (PoTry f true c) o P) as T. rewrite Q in T. exact T.
      * apply Z.leb_gt in L. pose proof (t_new f (PoTry f true c) o c P L) as T. rewrite Q in T. exact T.
    + destruct (aget g (pl_map s)) as [x|]; [|cbn; rewrite W; apply t_same]. destruct (ob_ph x); try (cbn; rewrite W; apply t_same).
      destruct (ob_stop x); [|destruct acc; [destruct (_ <=? _)%Z|]]; cbn [fst snd]; rewrite OTHER by exact E; unfold own; cbn; rewrite ?E; apply t_same.
  - destruct (eqb g f) eqn:E.
    + apply eqb_true in E. subst g. rewrite W. destruct (ob_ph o) eqn:P; try (cbn; rewrite W; apply t_same). cbn [fst snd]. rewrite SELF. now apply t_end.
    + destruct (aget g (pl_map s)) as [x|]; [|cbn; rewrite W; apply t_same]. destruct (ob_ph x); cbn [fst snd]; rewrite ?OTHER, ?W by exact E; apply t_same.
Qed.
(** A new observer. *)
Lemma birth op s f o : aget f (pl_map s) = None -> aget f (pl_map (fst (po_step op s))) = Some o ->
  exists to now, op = PoBody f to now /\ In (f, to) (pl_in s) /\ o = ob_new now to /\ own f (snd (po_step op s)) = [PRet f now].
Proof.
  intros N. assert (OTHER : forall g x, aget f (pl_map (po_set g x s)) = Some o -> aget g (pl_map s) <> None -> False).
  { intros g x E X. rewrite get_set in E. destruct (eqb f g) eqn:K; [apply eqb_true in K; subst g; contradiction|congruence]. }
  destruct op as [| |g to|g to now| |g now|g sig now|g acc c|g]; cbn [po_step].
  - cbn. congruence.
  - destruct (pl_on s); cbn; congruence.
  - destruct g; [cbn; congruence|]. destruct (pl_on s); cbn; congruence.
  - destruct (existsb _ _) eqn:X; [|cbn; congruence]. cbn [fst snd pl_map]. unfold po_observe. destruct (aget g (pl_map s)) eqn:G; [intros H; exfalso; eapply OTHER; eauto; congruence|].
    rewrite get_set. destruct (eqb f g) eqn:K; [|congruence]. apply eqb_true in K. subst g. intros H. injection H as <-. exists to, now. split; [reflexivity|]. split; [|split; [reflexivity|own_ev]].
    apply existsb_exists in X. destruct X as (y & Y & Q). apply eqb_true in Q. subst y. exact Y.
  - destruct (pl_on s); [|cbn; congruence]. cbn. intros H. apply aget_in, filter_In in H. destruct H as [H _]. exfalso. apply aget_none in N. apply N. apply (in_map fst) in H. exact H.
  - destruct (aget g (pl_map s)) as [x|] eqn:G; [|cbn; congruence]. destruct (ob_ph x); try (cbn; congruence). intros H. exfalso. eapply OTHER; eauto; congruence.
  - destruct (aget g (pl_map s)) as [x|] eqn:G; [|cbn; congruence]. destruct (ob_ph x); try (cbn; congruence). destruct sig; intros H; exfalso; eapply OTHER; eauto; congruence.
  - destruct (aget g (pl_map s)) as [x|] eqn:G; [|cbn; congruence]. destruct (ob_ph x); try (cbn; congruence). destruct (ob_stop x); [|destruct acc; [destruct (_ <=? _)%Z|]]; intros H; exfalso; eapply OTHER; eauto; congruence.
  - destruct (aget g (pl_map s)) as [x|] eqn:G; [|cbn; congruence]. destruct (ob_ph x); try (cbn; congruence); intros H; exfalso; eapply OTHER; eauto; congruence.
Qed.

(** ** Every observer *)
Definition fine (o : obs) : Prop := (ob_alive o = true <-> ob_ph o <> PhDone) /\ ob_stop o = false.
Lemma sign_own f t evs : sign f t evs <-> sign f t (own f evs).
Proof.
  unfold sign, own. split; intros [H|H]; [left|right|left|right]; try (apply filter_In; split; [exact H|cbn; apply eqb_refl]); apply filter_In in H; tauto.
Qed.
Lemma own_app f a b : own f (a ++ b) = own f a ++ own f b. Proof. apply filter_app. Qed.
Lemma each ops s evs f o : ran ops s evs -> watches s f o -> fine o /\ sign f (ob_last o) evs.
Proof.
  revert s evs o. induction ops as [|op ops IH] using rev_ind; intros s evs o R W; [unfold ran in R; cbn in R; injection R as <- <-; discriminate|].
  apply ran_snoc in R. destruct R as (s1 & e1 & e & R & E & ->). destruct (aget f (pl_map s1)) as [x|] eqn:G.
  - destruct (IH _ _ _ R G) as [[A B] C]. pose proof (turn_of op s1 f x (ran_nodup _ _ _ R) G) as T. rewrite E in T. cbn [fst snd] in T. unfold watches in W. rewrite W in T.
    assert (SG : forall t, sign f t e1 -> sign f t (e1 ++ e)) by (intros t [X|X]; [left|right]; apply in_or_app; auto).
    remember (own f e) as oe eqn:OE. assert (SE : forall t, In (PRet f t) oe \/ In (PSig f t) oe -> sign f t (e1 ++ e)) by (intros t X; apply sign_own; rewrite own_app, <- OE; destruct X; [left|right]; apply in_or_app; auto).
    clear OE. destruct A as [A1 A2]. inversion T; subst; (split; [unfold fine; cbn; (split; [|exact B]); split; intros; try discriminate; try congruence; auto; try (apply A2; congruence); match goal with H : _ \/ _ |- _ => destruct H; subst; try discriminate; apply A2; congruence end|]);
      first [solve [apply SG; exact C]|solve [cbn; apply SE; cbn; auto]].
  - destruct (birth op s1 f o G) as (to & now & -> & _ & -> & OE); [rewrite E; exact W|]. rewrite E in OE. cbn [snd] in OE. split; [split; [cbn; split; [discriminate|auto]|reflexivity]|].
    apply sign_own. rewrite own_app, OE. left. apply in_or_app. right. now left.
Qed.

(** ** Times *)
Lemma sign_time ops s evs f t : ran ops s evs -> sign f t evs -> In t (flat_map time_of ops).
Proof.
  revert s evs. induction ops as [|op ops IH] using rev_ind; intros s evs R S0; [unfold ran in R; cbn in R; injection R as <- <-; destruct S0 as [[]|[]]|].
  apply ran_snoc in R. destruct R as (s1 & e1 & e & R & E & ->). rewrite flat_map_app. apply in_or_app.
  assert (D : sign f t e1 \/ sign f t e) by (destruct S0 as [H|H]; apply in_app_or in H; destruct H; [left; left|right; left|left; right|right; right]; assumption).
  destruct D as [D|D]; [left; eauto|]. right. clear S0 R IH.
  destruct op as [| |g to|g to now| |g now|g sig now|g acc c|g]; cbn [po_step] in E.
  - injection E as <- <-. destruct D as [[]|[]].
  - destruct (pl_on s1); injection E as <- <-; destruct D as [[]|[]].
  - destruct g; [injection E as <- <-; destruct D as [[D|[]]|[D|[]]]; discriminate|]. destruct (pl_on s1); injection E as <- <-; [destruct D as [[]|[]]|destruct D as [[D|[]]|[D|[]]]; discriminate].
  - destruct (existsb _ _); injection E as <- <-; [|destruct D as [[]|[]]]. destruct D as [[D|[]]|[D|[]]]; [injection D as <- <-; now left|discriminate].
  - destruct (pl_on s1); injection E as <- <-; destruct D as [[]|[]].
  - destruct (aget g (pl_map s1)) as [x|]; [destruct (ob_ph x)|]; injection E as <- <-; destruct D as [[]|[]].
  - destruct (aget g (pl_map s1)) as [x|]; [destruct (ob_ph x); try destruct sig|]; injection E as <- <-; try solve [destruct D as [[]|[]]]. destruct D as [[D|[]]|[D|[]]]; [discriminate|]. injection D as <- <-. now left.
  - destruct (aget g (pl_map s1)) as [x|]; [destruct (ob_ph x); try destruct (ob_stop x); try destruct acc; try destruct (_ <=? _)%Z|]; injection E as <- <-; first [solve [destruct D as [[]|[]]]|destruct D as [[D|[]]|[D|[]]]; discriminate].
  - destruct (aget g (pl_map s1)) as [x|]; [destruct (ob_ph x)|]; injection E as <- <-; destruct D as [[]|[]].
Qed.
Lemma steady_last ops op t now : steady (ops ++ [op]) -> at_time op = Some now -> In t (flat_map time_of ops) -> (t <= now)%Z.
Proof.
  unfold steady. rewrite flat_map_app. intros S0 A I0.
  assert (In now (flat_map time_of [op])) by (destruct op; try discriminate; cbn in *; injection A as <-; auto).
  induction (flat_map time_of ops) as [|x l IH]; [destruct I0|]. cbn in S0. inversion S0 as [|? ? X Y]. destruct I0 as [->|I0]; [|auto]. rewrite Forall_forall in Y. apply Y, in_or_app. auto.
Qed.
Lemma steady_app a b : steady (a ++ b) -> steady a.
Proof.
  unfold steady. rewrite flat_map_app. induction (flat_map time_of a) as [|x l IH]; [constructor|]. cbn. intros S0. inversion S0 as [|? ? X Y]. constructor; [auto|]. rewrite Forall_forall in *. intros y H1. apply Y, in_or_app. auto.
Qed.

(** ** An observer that is kept alive *)
Lemma handed_app f r a b : handed f r (a ++ b) = handed f r a ++ handed f r b. Proof. apply flat_map_app. Qed.
Lemma handed_own f r e : handed f r e = handed f r (own f e).
Proof.
  unfold handed, own. induction e as [|x e IH]; [reflexivity|]. cbn. destruct x as [g t|g|g t|g q c]; cbn; [destruct (eqb g f); cbn; exact IH|exact IH|destruct (eqb g f); cbn; exact IH|].
  destruct (eqb g f) eqn:E; cbn; [rewrite E, IH; reflexivity|exact IH].
Qed.
Lemma ss_snoc l c d : StronglySorted Z.lt l -> Forall (fun x => (x <= c)%Z) l -> (c < d)%Z -> StronglySorted Z.lt (l ++ [d]).
Proof.
  induction l as [|x l IH]; cbn; intros S0 F L; [repeat constructor|]. inversion S0 as [|? ? X Y]. inversion F as [|? ? P Q]. subst. constructor; [auto|].
  apply Forall_app. split; [exact Y|]. constructor; [lia|constructor].
Qed.
Record kept (f : text) (o : obs) (e : list poev) (o' : obs) : Prop := Kept {
  k_loop : looping o'; k_run : ob_run o' = ob_run o; k_to : ob_to o' = ob_to o; k_last : (ob_last o <= ob_last o')%Z; k_sign : forall t, sign f t e -> (t <= ob_last o')%Z;
  k_clk : (ob_clock o <= ob_clock o')%Z; k_hand : StronglySorted Z.lt (handed f (ob_run o) e); k_up : Forall (fun c => (ob_clock o < c <= ob_clock o')%Z) (handed f (ob_run o) e);
  k_all : forall r c, In (PHand f r c) e -> r = ob_run o }.
Lemma stays_lemma a b s evs s' evs' f o : steady (a ++ b) -> ran a s evs -> watches s f o -> looping o -> ran (a ++ b) s' (evs ++ evs') -> ~ In PoStop b ->
  (forall b1 b2 now s1 e1, b = b1 ++ PoCheck f now :: b2 -> ran (a ++ b1) s1 (evs ++ e1) -> exists t, (t = ob_last o \/ sign f t e1) /\ (now - t < ob_to o)%Z) ->
  exists o', watches s' f o' /\ kept f o evs' o'.
Proof.
  intros ST R W L. revert ST s' evs'. induction b as [|op b IH] using rev_ind; intros ST s' evs' R' NS CH.
  - rewrite app_nil_r in R'. destruct (ran_fun _ _ _ _ _ R R') as [-> E]. assert (evs' = []) as -> by (apply (app_inv_head evs); rewrite app_nil_r; congruence).
    exists o. split; [exact W|]. constructor; try reflexivity; try exact L; try constructor. { intros t [[]|[]]. } intros r c [].
  - rewrite app_assoc in R', ST. apply ran_snoc in R'. destruct R' as (s1 & evs1 & e & R1 & E & EV). destruct (ran_app _ _ _ _ R1) as (sa & ea & e1 & RA & ->). destruct (ran_fun _ _ _ _ _ R RA) as [<- <-].
    rewrite <- app_assoc in EV. apply app_inv_head in EV. subst evs'.
    destruct (IH (steady_app _ _ ST) _ _ R1) as (o1 & W1 & K); [intros H; apply NS, in_or_app; auto| |].
    { intros b1 b2 now s2 e2 -> R2. apply (CH b1 (b2 ++ [op]) now s2 e2); [rewrite <- app_assoc; reflexivity|exact R2]. }
    destruct (each _ _ _ _ _ R1 W1) as [[FA FB] FS]. pose proof (turn_of op s1 f o1 (ran_nodup _ _ _ R1) W1) as T. rewrite E in T. cbn [fst snd] in T.
    assert (PAST : forall now, at_time op = Some now -> (ob_last o1 <= now)%Z) by (intros now H; exact (steady_last _ _ _ _ ST H (sign_time _ _ _ _ _ R1 FS))).
    assert (SIG : forall t, sign f t (e1 ++ e) -> sign f t e1 \/ sign f t (own f e)).
    { intros t H. apply sign_own in H. rewrite own_app in H. destruct H as [H|H]; apply in_app_or in H; destruct H as [H|H]; [left; apply sign_own; left|right; left|left; apply sign_own; right|right; right]; exact H. }
    assert (AL : ob_alive o1 = true) by (apply FA; destruct (k_loop _ _ _ _ K) as [H|[H|H]]; congruence).
    assert (ALL : forall r c, In (PHand f r c) (e1 ++ e) -> In (PHand f r c) e1 \/ In (PHand f r c) (own f e)).
    { intros r c H. apply in_app_or in H. destruct H as [H|H]; [auto|]. right. apply filter_In. split; [exact H|apply eqb_refl]. }
    remember (own f e) as oe eqn:OE.
    assert (HO : handed f (ob_run o) (e1 ++ e) = handed f (ob_run o) e1 ++ handed f (ob_run o) oe) by (rewrite handed_app, (handed_own _ _ e), OE; reflexivity).
    destruct K as [K1 K2 K3 K4 K5 K6 K7 K8 K9]. clear IH.
    assert (QUIET : forall o2, looping o2 -> ob_run o2 = ob_run o1 -> ob_to o2 = ob_to o1 -> ob_last o2 = ob_last o1 -> ob_clock o2 = ob_clock o1 -> oe = [] -> kept f o (e1 ++ e) o2).
    { intros o2 Q1 Q2 Q3 Q4 Q5 Q6. rewrite Q6 in *. cbn in HO. rewrite app_nil_r in HO. constructor; rewrite ?HO; try congruence; try lia; auto.
      - intros t H. destruct (SIG _ H) as [H'|[[]|[]]]. rewrite Q4. auto.
      - rewrite Q5. exact K8.
      - intros r c H. destruct (ALL _ _ H) as [H'|[]]. eauto. }
    assert (SIGNAL : forall o2 now, at_time op = Some now -> looping o2 -> ob_run o2 = ob_run o1 -> ob_to o2 = ob_to o1 -> ob_last o2 = now -> ob_clock o2 = ob_clock o1 -> (oe = [PRet f now] \/ oe = [PSig f now]) -> kept f o (e1 ++ e) o2).
    { intros o2 now A Q1 Q2 Q3 Q4 Q5 Q6. pose proof (PAST _ A) as P. assert (handed f (ob_run o) oe = []) as H0 by (destruct Q6 as [->| ->]; reflexivity). rewrite H0, app_nil_r in HO.
      constructor; rewrite ?HO; try congruence; try lia; auto.
      - intros t H. destruct (SIG _ H) as [H'|H']; [apply K5 in H'; lia|]. destruct Q6 as [Q6|Q6]; rewrite Q6 in H'; destruct H' as [[H'|[]]|[H'|[]]]; try discriminate; injection H' as <-; lia.
      - rewrite Q5. exact K8.
      - intros r c H. destruct (ALL _ _ H) as [H'|H']; [eauto|]. destruct Q6 as [Q6|Q6]; rewrite Q6 in H'; destruct H' as [H'|[]]; discriminate. }
    inversion T as [X|[X|X] Y|t X Y Z0|t to X Y|t ph X Y Z0 V|t X Y [Z0|Z0]|t X Y|t X Y|X Y|X|c X Y|X|X]; try congruence; try (exfalso; destruct K1 as [K1|[K1|K1]]; congruence).
    + exists o1. split; [symmetry; eassumption|]. apply QUIET; auto.
    + exfalso. apply NS, in_or_app. right. left. exact X.
    + eexists. split; [symmetry; eassumption|]. apply (SIGNAL _ t); auto.
    + eexists. split; [symmetry; eassumption|]. apply QUIET; auto. unfold looping. cbn. tauto.
    + exfalso. subst op. destruct (CH b [] t s1 e1 eq_refl R1) as (t0 & [->|T0] & T1); [lia|]. apply K5 in T0. lia.
    + eexists. split; [symmetry; eassumption|]. apply QUIET; auto. now left.
    + eexists. split; [symmetry; eassumption|]. apply (SIGNAL _ t); auto. right. right. reflexivity.
    + eexists. split; [symmetry; eassumption|]. apply QUIET; auto. now left.
    + eexists. split; [symmetry; eassumption|]. match goal with H : [PHand _ _ _] = oe |- _ => rewrite <- H in HO, ALL, SIG end. cbn in HO. rewrite eqb_refl, K2, Nat.eqb_refl in HO. cbn in HO. constructor; cbn; rewrite ?HO; auto; try lia.
      * now left.
      * intros t G. destruct (SIG _ G) as [H'|[[H'|[]]|[H'|[]]]]; [auto|discriminate|discriminate].
      * eapply ss_snoc; eauto. rewrite Forall_forall in *. intros x Hx. apply K8 in Hx. lia.
      * apply Forall_app. split; [|constructor; [lia|constructor]]. rewrite Forall_forall in *. intros x Hx. apply K8 in Hx. lia.
      * intros r d G. destruct (ALL _ _ G) as [H'|[H'|[]]]; [eauto|]. injection H' as <- <-. exact K2.
    + eexists. split; [symmetry; eassumption|]. apply QUIET; auto. now left.
Qed.
Lemma stays a b s evs s' evs' f o : steady (a ++ b) -> ran a s evs -> watches s f o -> looping o -> ran (a ++ b) s' (evs ++ evs') -> ~ In PoStop b ->
  (forall b1 b2 now s1 e1, b = b1 ++ PoCheck f now :: b2 -> ran (a ++ b1) s1 (evs ++ e1) -> exists t, (t = ob_last o \/ sign f t e1) /\ (now - t < ob_to o)%Z) ->
  exists o', watches s' f o' /\ looping o' /\ ob_run o' = ob_run o /\ (forall r c, In (PHand f r c) evs' -> r = ob_run o) /\ StronglySorted Z.lt (handed f (ob_run o) evs').
Proof. intros ST R W L R' NS CH. destruct (stays_lemma _ _ _ _ _ _ _ _ ST R W L R' NS CH) as (o' & W' & K). exists o'. destruct K. auto 8. Qed.

Lemma no_stop ops s evs f o : ran ops s evs -> watches s f o -> ob_stop o = false.
Proof. intros R W. destruct (each _ _ _ _ _ R W) as [[_ H] _]. exact H. Qed.
Lemma one_thread ops s evs f o : ran ops s evs -> watches s f o -> (ob_alive o = true <-> ~ over o) /\ sign f (ob_last o) evs.
Proof. intros R W. destruct (each _ _ _ _ _ R W) as [[H _] X]. auto. Qed.

(** ** ObserveFile *)
Lemma body_step s f to now : In (f, to) (pl_in s) -> exists s', po_step (PoBody f to now) s = (s', [PRet f now]) /\ pl_on s' = pl_on s /\
  aget f (pl_map s') = Some (match aget f (pl_map s) with Some o => if ob_alive o then ob_reset now o else ob_restart to o | None => ob_new now to end).
Proof.
  intros I0. cbn [po_step]. assert (existsb (fun x => eqb x (f, to)) (pl_in s) = true) as -> by (apply existsb_exists; exists (f, to); split; [exact I0|apply eqb_refl]).
  eexists. split; [reflexivity|]. unfold po_observe. destruct (aget f (pl_map s)); cbn; rewrite aget_aset_same; auto.
Qed.
Lemma starts ops s evs f to now : ran ops s evs -> In (f, to) (pl_in s) -> aget f (pl_map s) = None ->
  exists s' o, ran (ops ++ [PoBody f to now]) s' (evs ++ [PRet f now]) /\ watches s' f o /\ looping o /\ ob_last o = now /\ ob_to o = to.
Proof.
  intros R I0 N. destruct (body_step s f to now I0) as (s' & E & _ & G). rewrite N in G. exists s'. eexists. split; [apply ran_snoc; eauto 8|]. split; [exact G|]. split; [now left|auto].
Qed.
Lemma renews ops s evs f o to now : ran ops s evs -> In (f, to) (pl_in s) -> watches s f o -> looping o ->
  exists s' o', ran (ops ++ [PoBody f to now]) s' (evs ++ [PRet f now]) /\ watches s' f o' /\ looping o' /\ ob_last o' = now /\ ob_to o' = ob_to o /\ ob_run o' = ob_run o.
Proof.
  intros R I0 W L. destruct (body_step s f to now I0) as (s' & E & _ & G). unfold watches in W. rewrite W in G. destruct (one_thread _ _ _ _ _ R W) as [A _].
  assert (ob_alive o = true) as AL by (apply A; unfold over; destruct L as [H|[H|H]]; congruence). rewrite AL in G.
  exists s'. eexists. split; [apply ran_snoc; eauto 8|]. split; [exact G|]. split; [exact L|auto].
Qed.
Lemma check_out s f o now : watches s f o -> ob_ph o = PhCheck -> ob_stop o = false -> (ob_to o <= now - ob_last o)%Z -> po_step (PoCheck f now) s = (po_set f (ob_at PhLeave o) s, []).
Proof. unfold watches. intros W P Q T. cbn [po_step]. rewrite W, P, Q. destruct (now - ob_last o <? ob_to o)%Z eqn:L; [apply Z.ltb_lt in L; lia|reflexivity]. Qed.
Lemma watch_set s f o : watches (po_set f o s) f o.
Proof. unfold watches. rewrite get_set, eqb_refl. reflexivity. Qed.
Lemma in_vain ops s evs f o to now : ran ops s evs -> In (f, to) (pl_in s) -> watches s f o -> over o -> (to <= now - ob_last o)%Z ->
  exists s' o', ran (ops ++ [PoBody f to now]) s' (evs ++ [PRet f now]) /\ watches s' f o' /\ looping o' /\ ob_run o' = S (ob_run o) /\
    forall t, (now <= t)%Z -> exists s'' o'', ran (ops ++ [PoBody f to now; PoCheck f t]) s'' (evs ++ [PRet f now]) /\ watches s'' f o'' /\ ob_ph o'' = PhLeave.
Proof.
  intros R I0 W L T. destruct (body_step s f to now I0) as (s' & E & _ & G). pose proof W as W0. unfold watches in W. rewrite W in G. destruct (one_thread _ _ _ _ _ R W0) as [A _].
  assert (ob_alive o = false) as AL by (destruct (ob_alive o); [destruct A as [A _]; exfalso; exact (A eq_refl L)|reflexivity]). rewrite AL in G.
  assert (R' : ran (ops ++ [PoBody f to now]) s' (evs ++ [PRet f now])) by (apply ran_snoc; eauto 8).
  exists s'. eexists. split; [exact R'|]. split; [exact G|]. split; [now left|]. split; [reflexivity|].
  intros t TT. exists (po_set f (ob_at PhLeave (ob_restart to o)) s'). eexists. split; [|split; [apply watch_set|reflexivity]].
  replace (ops ++ [PoBody f to now; PoCheck f t]) with ((ops ++ [PoBody f to now]) ++ [PoCheck f t]) by (rewrite <- app_assoc; reflexivity). apply ran_snoc. exists s', (evs ++ [PRet f now]), []. split; [exact R'|]. rewrite app_nil_r. split; [|reflexivity].
  apply check_out; [exact G|reflexivity|exact (no_stop _ _ _ _ _ R W0)|cbn; lia].
Qed.
Lemma clean_gone s f o : nodup s -> watches s f o -> ob_alive o = false -> pl_on s = true -> exists s', po_step PoClean s = (s', []) /\ aget f (pl_map s') = None /\ pl_on s' = true.
Proof.
  intros N W A O. cbn [po_step]. rewrite O. eexists. split; [reflexivity|]. split; [|reflexivity]. cbn. destruct (aget f (filter _ _)) as [x|] eqn:F; [|reflexivity].
  apply aget_in, filter_In in F. destruct F as [F P]. unfold watches in W. cbn in P. pose proof (in_aget _ _ _ N F) as W2. congruence.
Qed.
Lemma silence ops s evs f o now : ran ops s evs -> watches s f o -> ob_ph o = PhCheck -> (forall t, sign f t evs -> (ob_to o <= now - t)%Z) ->
  exists s' o', ran (ops ++ [PoCheck f now; PoEnd f]) s' evs /\ watches s' f o' /\ over o' /\
    (pl_on s = true -> exists s'', ran (ops ++ [PoCheck f now; PoEnd f; PoClean]) s'' evs /\ aget f (pl_map s'') = None).
Proof.
  intros R W P SG. destruct (one_thread _ _ _ _ _ R W) as [_ SL]. pose proof (check_out s f o now W P (no_stop _ _ _ _ _ R W) (SG _ SL)) as E1. set (s1 := po_set f (ob_at PhLeave o) s) in *.
  pose proof (watch_set s f (ob_at PhLeave o)) as W1. fold s1 in W1. set (o2 := Obs false (ob_stop o) (ob_last o) (ob_to o) PhDone (ob_has o) (ob_clock o) (ob_run o)).
  assert (E2 : po_step (PoEnd f) s1 = (po_set f o2 s1, [])) by (cbn [po_step]; unfold watches in W1; rewrite W1; reflexivity).
  assert (R1 : ran (ops ++ [PoCheck f now]) s1 evs) by (apply ran_snoc; exists s, evs, []; rewrite app_nil_r; auto).
  assert (R2 : ran (ops ++ [PoCheck f now; PoEnd f]) (po_set f o2 s1) evs).
  { replace (ops ++ [PoCheck f now; PoEnd f]) with ((ops ++ [PoCheck f now]) ++ [PoEnd f]) by (rewrite <- app_assoc; reflexivity). apply ran_snoc. exists s1, evs, []. rewrite app_nil_r. auto. }
  exists (po_set f o2 s1), o2. split; [exact R2|]. split; [apply watch_set|]. split; [reflexivity|]. intros O.
  destruct (clean_gone (po_set f o2 s1) f o2 (ran_nodup _ _ _ R2) (watch_set _ _ _) eq_refl O) as (s3 & E3 & G & _). exists s3. split; [|exact G].
  replace (ops ++ [PoCheck f now; PoEnd f; PoClean]) with ((ops ++ [PoCheck f now; PoEnd f]) ++ [PoClean]) by (rewrite <- app_assoc; reflexivity). apply ran_snoc. exists (po_set f o2 s1), evs, []. rewrite app_nil_r. auto.
Qed.
Lemma recovers ops s evs f o to now : ran ops s evs -> watches s f o -> over o -> pl_on s = true -> f <> [] ->
  exists s' o', ran (ops ++ [PoClean; PoEnter f to; PoBody f to now]) s' (evs ++ [PRet f now]) /\ watches s' f o' /\ looping o' /\ ob_last o' = now /\ ob_to o' = to.
Proof.
  intros R W L O NE. destruct (one_thread _ _ _ _ _ R W) as [A _]. assert (ob_alive o = false) as AL by (destruct (ob_alive o); [destruct A as [A _]; exfalso; exact (A eq_refl L)|reflexivity]).
  destruct (clean_gone s f o (ran_nodup _ _ _ R) W AL O) as (s1 & E1 & G & O1).
  assert (R1 : ran (ops ++ [PoClean]) s1 evs) by (apply ran_snoc; exists s, evs, []; rewrite app_nil_r; auto).
  set (s2 := Pool (pl_on s1) (pl_map s1) ((f, to) :: pl_in s1)). assert (E2 : po_step (PoEnter f to) s1 = (s2, [])) by (destruct f; [contradiction|]; cbn [po_step]; unfold s2; rewrite O1; reflexivity).
  assert (R2 : ran ((ops ++ [PoClean]) ++ [PoEnter f to]) s2 evs) by (apply ran_snoc; exists s1, evs, []; rewrite app_nil_r; auto).
  destruct (starts _ _ _ f to now R2) as (s3 & o3 & R3 & X); [now left|exact G|]. exists s3, o3. split; [|exact X].
  replace (ops ++ [PoClean; PoEnter f to; PoBody f to now]) with (((ops ++ [PoClean]) ++ [PoEnter f to]) ++ [PoBody f to now]) by (rewrite <- !app_assoc; reflexivity). exact R3.
Qed.

(** ** Messages *)
Lemma hands ops s evs f o now c : ran ops s evs -> watches s f o -> ob_ph o = PhWait -> (ob_clock o < c)%Z ->
  exists s' o', ran (ops ++ [PoWait f true now; PoTry f true c]) s' (evs ++ [PSig f now; PHand f (ob_run o) c]) /\ watches s' f o' /\ looping o' /\ ob_last o' = now /\ ob_clock o' = c.
Proof.
  intros R W P C. pose proof (no_stop _ _ _ _ _ R W) as NS. set (o1 := Obs (ob_alive o) (ob_stop o) now (ob_to o) PhHave true (ob_clock o) (ob_run o)).
  assert (E1 : po_step (PoWait f true now) s = (po_set f o1 s, [PSig f now])) by (cbn [po_step]; unfold watches in W; rewrite W, P; reflexivity).
  set (o2 := Obs (ob_alive o) (ob_stop o) now (ob_to o) PhCheck false c (ob_run o)).
  assert (E2 : po_step (PoTry f true c) (po_set f o1 s) = (po_set f o2 (po_set f o1 s), [PHand f (ob_run o) c])).
  { pose proof (watch_set s f o1) as W1. unfold watches in W1. cbn [po_step]. rewrite W1. cbn [ob_ph o1 ob_stop ob_clock]. rewrite NS. destruct (c <=? ob_clock o)%Z eqn:L; [apply Z.leb_le in L; lia|]. unfold o2. rewrite NS. reflexivity. }
  exists (po_set f o2 (po_set f o1 s)), o2. split; [|split; [apply watch_set|split; [now left|auto]]].
  replace (ops ++ [PoWait f true now; PoTry f true c]) with ((ops ++ [PoWait f true now]) ++ [PoTry f true c]) by (rewrite <- app_assoc; reflexivity).
  apply ran_snoc. exists (po_set f o1 s), (evs ++ [PSig f now]), [PHand f (ob_run o) c]. rewrite <- app_assoc. split; [|auto]. apply ran_snoc. eauto 8.
Qed.

(** ** Stop *)
Definition empty (s : pool) : Prop := pl_on s = false /\ pl_map s = [] /\ pl_in s = [].
Lemma empty_step op s : empty s -> op <> PoStart -> empty (fst (po_step op s)) /\ forall f r c, ~ In (PHand f r c) (snd (po_step op s)).
Proof.
  intros (A & B & C) N. destruct s as [on m i]. cbn in A, B, C. subst. unfold empty.
  destruct op as [| |f to|f to now| |f now|f sig now|f acc c|f]; try congruence; cbn; try (split; [auto|intros; intros []]); destruct f; cbn; (split; [auto|intros; intros [H|[]]; discriminate]).
Qed.
Lemma stopped ops s evs b s' evs' : ran ops s evs -> pl_on s = true -> pl_in s = [] -> ~ In PoStart b -> ran (ops ++ PoStop :: b) s' (evs ++ evs') ->
  pl_map s' = [] /\ forall f r c, ~ In (PHand f r c) evs'.
Proof.
  intros R O I0. revert s' evs'. enough (forall b s' evs', ~ In PoStart b -> ran (ops ++ PoStop :: b) s' (evs ++ evs') -> empty s' /\ forall f r c, ~ In (PHand f r c) evs') as H by (intros; destruct (H b s' evs') as [(_ & X & _) Y]; auto).
  clear b. induction b as [|op b IH] using rev_ind; intros s' evs' N R'.
  - apply ran_snoc in R'. destruct R' as (s1 & e1 & e & R1 & E & EV). destruct (ran_fun _ _ _ _ _ R R1) as [<- <-]. apply app_inv_head in EV. subst e. cbn [po_step] in E. rewrite O in E. injection E as <- <-.
    split; [split; [|split]; auto|]. intros f r c [].
  - replace (ops ++ PoStop :: b ++ [op]) with ((ops ++ PoStop :: b) ++ [op]) in R' by (rewrite <- app_assoc; reflexivity). apply ran_snoc in R'. destruct R' as (s1 & e1 & e & R1 & E & EV).
    destruct (ran_app _ _ _ _ R1) as (sa & ea & x & RA & ->). destruct (ran_fun _ _ _ _ _ R RA) as [<- <-]. rewrite <- app_assoc in EV. apply app_inv_head in EV. subst evs'.
    destruct (IH s1 x) as [EM NH]; [intros H; apply N, in_or_app; auto|exact R1|]. destruct (empty_step op s1 EM) as [EM' NH']; [intros ->; apply N, in_or_app; right; now left|]. rewrite E in EM', NH'.
    split; [exact EM'|]. intros f r c H. apply in_app_or in H. destruct H as [H|H]; [exact (NH _ _ _ H)|exact (NH' _ _ _ H)].
Qed.

(** ** Counterexamples *)
Ltac times := unfold steady; cbn; repeat constructor; lia.
Lemma pol_restart : exists ops s evs f to now t, steady (ops ++ [PoCheck f t]) /\ ran ops s evs /\ pl_on s = true /\ sign f now evs /\ (now <= t)%Z /\ (t - now < to)%Z /\ (forall x, In (PoEnter f x) ops -> x = to) /\
  exists s' o, ran (ops ++ [PoCheck f t]) s' evs /\ watches s' f o /\ ob_ph o = PhLeave.
Proof.
  exists p_back. eexists. eexists. exists p_f, 10000%Z, 10200%Z, 10201%Z. split; [times|]. split; [vm_compute; reflexivity|]. split; [reflexivity|].
  split; [left; vm_compute; auto 8|]. split; [lia|]. split; [lia|]. split; [intros x H; repeat (destruct H as [H|H]; [try discriminate; injection H; auto|]); destruct H|].
  eexists. eexists. split; [vm_compute; reflexivity|]. split; vm_compute; reflexivity.
Qed.
Lemma pol_leaving : exists ops s evs f to now, steady (ops ++ [PoBody f to now]) /\ ran ops s evs /\ In (f, to) (pl_in s) /\ (exists o, watches s f o /\ ob_alive o = true) /\
  exists s' o, ran (ops ++ [PoBody f to now; PoEnd f]) s' (evs ++ [PRet f now]) /\ watches s' f o /\ over o.
Proof.
  exists (PoStart :: p_call 0 ++ p_message 20 1 ++ [PoCheck p_f 10100; PoEnter p_f 10000]). eexists. eexists. exists p_f, 10000%Z, 10101%Z. split; [times|]. split; [vm_compute; reflexivity|].
  split; [vm_compute; auto|]. split; [eexists; split; [vm_compute; reflexivity|reflexivity]|]. eexists. eexists. split; [vm_compute; reflexivity|]. split; vm_compute; reflexivity.
Qed.
Lemma pol_stop : exists a b s s' evs evs' f r c, ran (a ++ [PoStop]) s evs /\ pl_on s = false /\ ~ In PoStart b /\ ran (a ++ PoStop :: b) s' (evs ++ evs') /\ In (PHand f r c) evs'.
Proof.
  exists [PoStart; PoEnter p_f 10000], ([PoBody p_f 10000 0] ++ p_message 20 1). eexists. eexists. eexists. eexists. eexists. eexists. eexists.
  split; [vm_compute; reflexivity|]. split; [reflexivity|]. split; [intros H; repeat (destruct H as [H|H]; [discriminate|]); destruct H|]. split; [vm_compute; reflexivity|]. right. right. left. reflexivity.
Qed.
Lemma p_live_steady : steady p_live. Proof. times. Qed.
