Require Import List Bool ZArith Lia.
Require Import Verif.Base Verif.LifeModel Verif.LifeSpec.
Import ListNotations.

(* ---- deeds ---- *)

Lemma deeds_app : forall p a b, deeds p (a ++ b) = deeds p a ++ deeds p b.
Proof.
  intros p; induction a as [|h a IH]; intros b; [reflexivity|].
  destruct h; cbn [deeds app]; try apply IH.
  destruct (eqb p p0); cbn [app]; rewrite IH; reflexivity.
Qed.

Definition top (p : piece) : deed :=
  match p with KDesc | KMap => Create | _ => Start end.

Lemma deeds_flat : forall A p (f : A -> list happening) l,
  deeds p (flat_map f l) = flat_map (fun a => deeds p (f a)) l.
Proof.
  intros A p f; induction l as [|a l IH]; [reflexivity|].
  cbn [flat_map]. rewrite deeds_app, IH. reflexivity.
Qed.

Lemma deeds_create_one : forall ask live p q,
  deeds p (create_one ask live q)
  = if eqb p q then (if ask q && negb (live q) then [Create] else []) else [].
Proof.
  intros ask live p q. unfold create_one. rewrite deeds_app.
  assert (E : deeds p match q with KServer => if ask KServer then [ManagerReset] else [] | _ => [] end = []).
  { destruct q; try reflexivity. destruct (ask KServer); reflexivity. }
  rewrite E. cbn [app]. destruct (ask q && negb (live q)); cbn [deeds]; [reflexivity|].
  destruct (eqb p q); reflexivity.
Qed.

Lemma deeds_start_one : forall ask p q,
  deeds p (start_one ask q)
  = if eqb p q then (match q with KDesc => [] | _ => if ask q then [Start] else [] end) else [].
Proof.
  intros ask p q. unfold start_one.
  destruct q; try match goal with |- context[ask ?x] => destruct (ask x) end; cbn [deeds];
    match goal with |- context[eqb p ?x] => destruct (eqb p x) end; reflexivity.
Qed.

Lemma deeds_stop_one : forall live p q,
  deeds p (stop_one live q)
  = if eqb p q then (match q with KDesc => [] | _ => if live q then [Stop] else [] end) else [].
Proof.
  intros live p q. unfold stop_one.
  destruct q; match goal with |- context[live ?x] => destruct (live x) end; cbn [deeds app];
    match goal with |- context[eqb p ?x] => destruct (eqb p x) end; reflexivity.
Qed.

Lemma deeds_destroy_one : forall live p q,
  deeds p (destroy_one live q) = if eqb p q then (if live q then [Destroy] else []) else [].
Proof.
  intros live p q. unfold destroy_one.
  destruct (live q); cbn [deeds]; destruct (eqb p q); reflexivity.
Qed.

Lemma pick_one : forall (A : Type) p (g : piece -> list A) l,
  NoDup l -> flat_map (fun q => if eqb p q then g q else []) l
  = if existsb (eqb p) l then g p else [].
Proof.
  intros A p g; induction l as [|q l IH]; intro N; [reflexivity|].
  inversion N as [|? ? N1 N2]; subst. cbn [flat_map existsb].
  rewrite (IH N2). destruct (eqb p q) eqn:E; [|reflexivity].
  apply eqb_true in E. subst q. cbn [orb].
  assert (F : existsb (eqb p) l = false).
  { apply not_true_is_false. intro F. apply existsb_exists in F as (x & X & Y).
    apply eqb_true in Y. subst x. contradiction. }
  rewrite F, app_nil_r. reflexivity.
Qed.

Lemma nodup_orders : NoDup create_order /\ NoDup start_order /\ NoDup stop_order /\ NoDup destroy_order.
Proof.
  unfold create_order, start_order, stop_order, destroy_order.
  split; [|split; [|split]];
  repeat (constructor; [cbn; intro Q; repeat (destruct Q as [Q|Q]; [discriminate|]); destruct Q|]);
  constructor.
Qed.

Lemma deeds_init : forall ask live p, ask KDesc = true -> ask KMap = true ->
  deeds p (initialize_trace ask live)
  = (if ask p && negb (live p) then [Create] else [])
    ++ (match p with KDesc | KMap => [] | _ => if ask p then [Start] else [] end).
Proof.
  intros ask live p D M. unfold initialize_trace. destruct nodup_orders as (N1 & N2 & _).
  rewrite deeds_app, !deeds_flat. f_equal.
  - rewrite (flat_map_ext _ _ (deeds_create_one ask live p)).
    rewrite (pick_one _ p (fun q => if ask q && negb (live q) then [Create] else [])) by assumption.
    destruct p; reflexivity.
  - rewrite (flat_map_ext _ _ (deeds_start_one ask p)).
    rewrite (pick_one _ p (fun q => match q with KDesc => [] | _ => if ask q then [Start] else [] end))
      by assumption.
    destruct p; reflexivity.
Qed.

Lemma deeds_fin : forall live p,
  deeds p (finalize_trace live) = if live p then closing p else [].
Proof.
  intros live p. unfold finalize_trace. destruct nodup_orders as (_ & _ & N1 & N2).
  rewrite deeds_app, !deeds_flat.
  rewrite (flat_map_ext _ _ (deeds_stop_one live p)).
  rewrite (flat_map_ext _ _ (deeds_destroy_one live p)).
  rewrite (pick_one _ p (fun q => match q with KDesc => [] | _ => if live q then [Stop] else [] end))
    by assumption.
  rewrite (pick_one _ p (fun q => if live q then [Destroy] else [])) by assumption.
  destruct p; match goal with |- context[live ?x] => destruct (live x) end; reflexivity.
Qed.

(* ---- the status a trace leads to ---- *)

Record status := mkStatus {
  st_of : piece -> option deed;
  st_serving : bool;
  st_hooked : bool
}.

Definition st0 : status := mkStatus (fun _ => None) false false.

Definition note (s : status) (h : happening) : status :=
  match h with
  | Do d p => mkStatus (fun q => if eqb q p then (match d with Destroy => None | _ => Some d end)
                                 else st_of s q) (st_serving s) (st_hooked s)
  | ManagerReset => mkStatus (st_of s) true (st_hooked s)
  | ManagerStop => mkStatus (st_of s) false (st_hooked s)
  | Hook => mkStatus (st_of s) (st_serving s) true
  | Unhook => mkStatus (st_of s) (st_serving s) false
  end.

Definition notes_of (t : list happening) (s : status) := fold_left note t s.

Definition norm (d : option deed) : option deed :=
  match d with Some Destroy => None | _ => d end.

Lemma last_snoc : forall A (l : list A) x d, last (l ++ [x]) d = x.
Proof.
  intros A; induction l as [|a l IH]; intros x d; [reflexivity|].
  cbn [app last]. destruct (l ++ [x]) eqn:E; [destruct l; discriminate|].
  rewrite <- E. apply IH.
Qed.

Lemma latest_snoc : forall p t h,
  latest p (t ++ [h]) = match h with
                        | Do d q => if eqb p q then Some d else latest p t
                        | _ => latest p t
                        end.
Proof.
  intros p t h. unfold latest. rewrite deeds_app.
  destruct h; cbn [deeds]; rewrite ?app_nil_r; try reflexivity.
  destruct (eqb p p0); [|rewrite app_nil_r; reflexivity].
  rewrite map_app. apply last_snoc.
Qed.

Lemma serving_snoc : forall t h,
  serving (t ++ [h]) <-> match h with
                         | ManagerReset => True
                         | ManagerStop => False
                         | _ => serving t
                         end.
Proof.
  intros t h. split.
  - intros (l & r & E & N).
    destruct r as [|x r] using rev_ind.
    + apply app_inj_tail in E. destruct E as [_ ->]. exact Logic.I.
    + clear IHr. rewrite app_comm_cons, app_assoc in E.
      apply app_inj_tail in E. destruct E as [-> ->].
      assert (G : serving (l ++ ManagerReset :: r)).
      { exists l, r. split; [reflexivity|]. intro F. apply N, in_or_app. auto. }
      destruct x; auto. apply N, in_or_app. right. left. reflexivity.
  - assert (K : serving t -> h <> ManagerStop -> serving (t ++ [h])).
    { intros (l & r & -> & N) Hh. exists l, (r ++ [h]). split.
      - rewrite <- app_assoc. reflexivity.
      - intro F. apply in_app_or in F as [F|[F|[]]]; auto. }
    intros Q. destruct h; try (apply K; [exact Q|discriminate]).
    + exists t, []. split; [reflexivity|intros []].
    + destruct Q.
Qed.

Lemma hooked_snoc : forall t h,
  hooked (t ++ [h]) <-> match h with
                         | Hook => True
                         | Unhook => False
                         | _ => hooked t
                         end.
Proof.
  intros t h. split.
  - intros (l & r & E & N).
    destruct r as [|x r] using rev_ind.
    + apply app_inj_tail in E. destruct E as [_ ->]. exact Logic.I.
    + clear IHr. rewrite app_comm_cons, app_assoc in E.
      apply app_inj_tail in E. destruct E as [-> ->].
      assert (G : hooked (l ++ Hook :: r)).
      { exists l, r. split; [reflexivity|]. intro F. apply N, in_or_app. auto. }
      destruct x; auto. apply N, in_or_app. right. left. reflexivity.
  - assert (K : hooked t -> h <> Unhook -> hooked (t ++ [h])).
    { intros (l & r & -> & N) Hh. exists l, (r ++ [h]). split.
      - rewrite <- app_assoc. reflexivity.
      - intro F. apply in_app_or in F as [F|[F|[]]]; auto. }
    intros Q. destruct h; try (apply K; [exact Q|discriminate]).
    + exists t, []. split; [reflexivity|intros []].
    + destruct Q.
Qed.

Definition stands (t : list happening) (s : status) : Prop :=
  (forall p, st_of s p = norm (latest p t))
  /\ (st_serving s = true <-> serving t)
  /\ (st_hooked s = true <-> hooked t).

Lemma stands_snoc : forall t s h, stands t s -> stands (t ++ [h]) (note s h).
Proof.
  intros t s h (A & B & C). split; [|split].
  - intro p. rewrite latest_snoc. destruct h; cbn [note st_of]; try apply A.
    destruct (eqb p p0); [destruct d; reflexivity|apply A].
  - rewrite serving_snoc. destruct h; cbn [note st_serving]; try exact B; intuition discriminate.
  - rewrite hooked_snoc. destruct h; cbn [note st_hooked]; try exact C; intuition discriminate.
Qed.

Lemma stands_app : forall t2 t s, stands t s -> stands (t ++ t2) (notes_of t2 s).
Proof.
  induction t2 as [|h t2 IH]; intros t s Q; [rewrite app_nil_r; exact Q|].
  cbn [notes_of fold_left]. change (h :: t2) with ([h] ++ t2). rewrite app_assoc.
  apply IH, stands_snoc, Q.
Qed.

Lemma stands_nil : stands [] st0.
Proof.
  split; [|split]; [reflexivity| |]; (split; [discriminate|]);
    intros (l & r & E & _); destruct l; discriminate.
Qed.

(* ---- checking a trace ---- *)

Definition every : list piece := create_order.

Lemma every_in : forall p, In p every.
Proof. destruct p; cbn; tauto. Qed.

Definition calls_onb (p q : piece) : bool :=
  match p, q with
  | (KSub | KPub | KServer | KClient), KProvider => true
  | (KSub | KPub | KProvider | KReceiver), KMap => true
  | KSub, KPool => true
  | KMon, KReceiver => true
  | _, _ => false
  end.

Lemma calls_onb_spec : forall p q, calls_on p q -> calls_onb p q = true.
Proof. destruct p, q; cbn; tauto. Qed.

Definition is_top (p : piece) (d : option deed) : bool :=
  match d, top p with
  | Some Create, Create => true
  | Some Start, Start => true
  | _, _ => false
  end.

Definition started (d : option deed) : bool :=
  match d with Some Start => true | _ => false end.

Definition gate (p : piece) : bool := match p with KServer | KClient => true | _ => false end.

Definition allowed (s : status) (h : happening) : bool :=
  match h with
  | Do Start p =>
      forallb (fun q => implb (calls_onb p q) (is_top q (st_of s q))) every
      && implb (gate p) (st_serving s)
  | Do Stop p =>
      forallb (fun q => implb (calls_onb p q) (is_top q (st_of s q))) every
      && implb (gate p) (negb (st_serving s))
      && implb (match p with KReceiver => true | _ => false end) (negb (st_hooked s))
  | Do Destroy p =>
      forallb (fun q => negb (started (st_of s q))) every
      && implb (match p with KDesc => true | _ => false end) (negb (st_hooked s))
      && implb (gate p) (negb (st_serving s))
  | Hook | Unhook => is_top KReceiver (st_of s KReceiver) && is_top KDesc (st_of s KDesc)
  | _ => true
  end.

Lemma is_top_up : forall t s p, stands t s -> is_top p (st_of s p) = true -> up p t.
Proof.
  intros t s p (A & _) T. unfold up. rewrite A in T.
  destruct (latest p t) as [[]|]; destruct p; try discriminate; reflexivity.
Qed.

Lemma allowed_sound : forall t s h, stands t s -> allowed s h = true -> in_order t h.
Proof.
  intros t s h Q C. pose proof Q as (A & B & D).
  assert (U : forall p, forallb (fun q => implb (calls_onb p q) (is_top q (st_of s q))) every = true ->
              forall q, calls_on p q -> up q t).
  { intros p F q E. rewrite forallb_forall in F. specialize (F q (every_in q)).
    rewrite (calls_onb_spec _ _ E) in F. cbn [implb] in F. eapply is_top_up; eauto. }
  assert (NS : negb (st_serving s) = true -> ~ serving t).
  { intros F G. apply B in G. rewrite G in F. discriminate. }
  assert (NH : negb (st_hooked s) = true -> ~ hooked t).
  { intros F G. apply D in G. rewrite G in F. discriminate. }
  destruct h as [d p| | | |]; cbn [allowed in_order] in *; auto.
  - destruct d; auto.
    + apply andb_prop in C as [C1 C2]. split; [apply U, C1|].
      intros E. apply B. destruct E; subst p; exact C2.
    + apply andb_prop in C as [C C3]. apply andb_prop in C as [C1 C2].
      split; [apply U, C1|split].
      * intros E. apply NS. destruct E; subst p; exact C2.
      * intros E. apply NH. subst p; exact C3.
    + apply andb_prop in C as [C C3]. apply andb_prop in C as [C1 C2].
      split; [|split].
      * intros q E. rewrite forallb_forall in C1. specialize (C1 q (every_in q)).
        rewrite A, E in C1. discriminate.
      * intros E. apply NH. subst p; exact C2.
      * intros E. apply NS. destruct E; subst p; exact C3.
  - apply andb_prop in C as [C1 C2]. split; eapply is_top_up; eauto.
  - apply andb_prop in C as [C1 C2]. split; eapply is_top_up; eauto.
Qed.

Fixpoint all_allowed (s : status) (t : list happening) : bool :=
  match t with
  | [] => true
  | h :: r => allowed s h && all_allowed (note s h) r
  end.

Definition tidy (t : list happening) : Prop :=
  forall pre h post, t = pre ++ h :: post -> in_order pre h.

Lemma all_allowed_sound : forall t2 t s, stands t s -> tidy t ->
  all_allowed s t2 = true -> tidy (t ++ t2).
Proof.
  induction t2 as [|h t2 IH]; intros t s Q T C; [rewrite app_nil_r; exact T|].
  cbn [all_allowed] in C. apply andb_prop in C as [C1 C2].
  change (h :: t2) with ([h] ++ t2). rewrite app_assoc.
  apply IH with (s := note s h); [apply stands_snoc, Q| |exact C2].
  intros pre h1 post E. destruct post as [|x post] using rev_ind.
  - apply app_inj_tail in E as [<- <-]. eapply allowed_sound; eauto.
  - clear IHpost. rewrite app_comm_cons, app_assoc in E.
    apply app_inj_tail in E as [-> _]. eapply T. reflexivity.
Qed.

Definition same (s s' : status) : Prop :=
  (forall p, st_of s p = st_of s' p) /\ st_serving s = st_serving s' /\ st_hooked s = st_hooked s'.

Lemma allowed_ext : forall s s' h, same s s' -> allowed s h = allowed s' h.
Proof.
  intros s s' h (A & B & C). unfold allowed, every, create_order.
  destruct h as [[] p| | | |]; cbn [forallb]; rewrite ?A, ?B, ?C; reflexivity.
Qed.

Lemma note_ext : forall s s' h, same s s' -> same (note s h) (note s' h).
Proof.
  intros s s' h (A & B & C). destruct h; repeat split; cbn; auto.
  intro q. rewrite A. reflexivity.
Qed.

Lemma all_allowed_ext : forall t s s', same s s' -> all_allowed s t = all_allowed s' t.
Proof.
  induction t as [|h t IH]; intros s s' E; [reflexivity|].
  cbn [all_allowed]. rewrite (allowed_ext s s' h E). f_equal. apply IH, note_ext, E.
Qed.

(* ---- the finitely many situations between two calls ---- *)

Record six := mkSix { x1 : bool; x2 : bool; x3 : bool; x4 : bool; x5 : bool; x6 : bool }.

Definition six_of (f : piece -> bool) : six :=
  mkSix (f KPub) (f KSub) (f KServer) (f KMon) (f KLog) (f KTime).

Definition fun_of (core : bool) (x : six) (p : piece) : bool :=
  match p with
  | KProvider | KReceiver | KDesc | KMap | KPool => core
  | KSub => x2 x
  | KPub => x1 x
  | KServer | KClient => x3 x
  | KTime => x6 x
  | KMon => x4 x
  | KLog => x5 x
  end.

Definition bools := [true; false].
Definition sixes : list six :=
  flat_map (fun a => flat_map (fun b => flat_map (fun c => flat_map (fun d =>
    flat_map (fun e => map (fun f => mkSix a b c d e f) bools) bools) bools) bools) bools) bools.

Lemma sixes_all : forall x, In x sixes.
Proof. intros [a b c d e f]; destruct a, b, c, d, e, f; vm_compute; tauto. Qed.

Definition zero6 := mkSix false false false false false false.

(* core pieces live together, server and client gates too *)
Definition shaped (f : piece -> bool) (core : bool) : Prop :=
  (forall p, bit_of p = None -> f p = core) /\ f KServer = f KClient.

Lemma shaped_fun : forall f core, shaped f core -> forall p, f p = fun_of core (six_of f) p.
Proof.
  intros f core (A & B) p. destruct p; cbn; try (apply A; reflexivity); auto.
Qed.

Definition between (live : piece -> bool) (core : bool) : status :=
  mkStatus (fun p => if live p then Some (top p) else None) (live KServer) core.

Lemma init_checked : forallb (fun a => forallb (fun l =>
    all_allowed (between (fun_of true l) true)
      (initialize_trace (fun_of true a) (fun_of true l))) sixes) sixes = true
  /\ forallb (fun a =>
    all_allowed (between (fun_of false zero6) false)
      (initialize_trace (fun_of true a) (fun_of false zero6))) sixes = true.
Proof. split; vm_compute; reflexivity. Qed.

Lemma fin_checked : forallb (fun l =>
    all_allowed (between (fun_of true l) true) (finalize_trace (fun_of true l))) sixes = true.
Proof. vm_compute. reflexivity. Qed.

Definition same_st (a b : status) : bool :=
  forallb (fun p => eqb (match st_of a p with None => 0 | Some Create => 1 | Some Start => 2 | Some Stop => 3 | Some Destroy => 4 end)
                        (match st_of b p with None => 0 | Some Create => 1 | Some Start => 2 | Some Stop => 3 | Some Destroy => 4 end)) every
  && Bool.eqb (st_serving a) (st_serving b) && Bool.eqb (st_hooked a) (st_hooked b).

Lemma same_st_spec : forall a b, same_st a b = true -> same a b.
Proof.
  intros a b E. unfold same_st in E. apply andb_prop in E as [E E3].
  apply andb_prop in E as [E1 E2].
  split; [|split; apply eqb_prop; assumption].
  intro p. rewrite forallb_forall in E1. specialize (E1 p (every_in p)).
  apply eqb_true in E1.
  destruct (st_of a p) as [[]|], (st_of b p) as [[]|]; discriminate || reflexivity.
Qed.

Definition or6 (a l : six) : six :=
  mkSix (x1 l || x1 a) (x2 l || x2 a) (x3 l || x3 a) (x4 l || x4 a) (x5 l || x5 a) (x6 l || x6 a).

Lemma init_leads : forallb (fun a => forallb (fun l =>
    same_st (notes_of (initialize_trace (fun_of true a) (fun_of true l)) (between (fun_of true l) true))
            (between (fun_of true (or6 a l)) true)) sixes) sixes = true
  /\ forallb (fun a =>
    same_st (notes_of (initialize_trace (fun_of true a) (fun_of false zero6)) (between (fun_of false zero6) false))
            (between (fun_of true (or6 a zero6)) true)) sixes = true.
Proof. split; vm_compute; reflexivity. Qed.

Lemma fin_leads : forallb (fun l =>
    same_st (notes_of (finalize_trace (fun_of true l)) (between (fun_of true l) true)) st0) sixes = true.
Proof. vm_compute. reflexivity. Qed.

Lemma create_one_ext : forall ask ask' live live' p,
  (forall q, ask q = ask' q) -> (forall q, live q = live' q) ->
  create_one ask live p = create_one ask' live' p.
Proof. intros ask ask' live live' p A B. unfold create_one. rewrite !A, !B. reflexivity. Qed.

Lemma init_ext : forall ask ask' live live',
  (forall q, ask q = ask' q) -> (forall q, live q = live' q) ->
  initialize_trace ask live = initialize_trace ask' live'.
Proof.
  intros ask ask' live live' A B. unfold initialize_trace. f_equal; apply flat_map_ext; intro p.
  - apply create_one_ext; assumption.
  - unfold start_one. rewrite A. reflexivity.
Qed.

Lemma fin_ext : forall live live', (forall q, live q = live' q) ->
  finalize_trace live = finalize_trace live'.
Proof.
  intros live live' B. unfold finalize_trace. f_equal; apply flat_map_ext; intro p.
  - unfold stop_one. rewrite B. reflexivity.
  - unfold destroy_one. rewrite B. reflexivity.
Qed.

Lemma between_ext : forall l l' c, (forall q, l q = l' q) -> same (between l c) (between l' c).
Proof. intros l l' c E. repeat split; cbn; auto. intro p. rewrite E. reflexivity. Qed.

Lemma asked_shaped : forall mask, shaped (asked mask) true.
Proof.
  intro mask. split; [|reflexivity]. intros p E. unfold asked. rewrite E. reflexivity.
Qed.

(* ---- the state between two calls ---- *)

Definition live_in (s : process) : piece -> bool :=
  match p_ctx s with Some g => g_live g | None => fun _ => false end.
Definition inited_in (s : process) : bool :=
  match p_ctx s with Some g => g_inited g | None => false end.

Definition story (p : piece) (alive : bool) (l : list deed) : Prop :=
  if alive then exists l1 o, l = l1 ++ o /\ lives p l1 /\ opening p o
  else lives p l.

Record good (s : process) (t : list happening) : Prop := {
  go_shape : shaped (live_in s) (inited_in s);
  go_down : inited_in s = false -> forall p, live_in s p = false;
  go_status : stands t (between (live_in s) (inited_in s));
  go_tidy : tidy t;
  go_story : forall p, story p (live_in s p) (deeds p t)
}.

Lemma stands_same : forall t a b, same a b -> stands t a -> stands t b.
Proof.
  intros t a b (A & B & C) (X & Y & Z). split; [|split].
  - intro p. rewrite <- A. apply X.
  - rewrite <- B. exact Y.
  - rewrite <- C. exact Z.
Qed.

Lemma good_start : good at_main [].
Proof.
  constructor.
  - split; [|reflexivity]. intros; reflexivity.
  - reflexivity.
  - eapply stands_same; [|exact stands_nil]. repeat split.
  - intros pre h post E. destruct pre; discriminate.
  - intro p. cbn. constructor.
Qed.

Lemma good_same : forall s s' t, live_in s' = live_in s -> inited_in s' = inited_in s ->
  good s t -> good s' t.
Proof.
  intros s s' t E1 E2 [A B C D F]. constructor; rewrite ?E1, ?E2; assumption.
Qed.

Lemma notes_ext : forall t a b, same a b -> same (notes_of t a) (notes_of t b).
Proof.
  induction t as [|h t IH]; intros a b E; [exact E|]. cbn [notes_of fold_left].
  apply IH, note_ext, E.
Qed.

Lemma same_trans : forall a b c, same a b -> same b c -> same a c.
Proof.
  intros a b c (A & B & C) (X & Y & Z). split; [|split]; congruence.
Qed.

Lemma same_sym : forall a b, same a b -> same b a.
Proof. intros a b (A & B & C). split; [|split]; congruence. Qed.

Lemma or6_fun : forall ask live core, shaped ask true -> shaped live core ->
  forall p, live p || ask p = fun_of true (or6 (six_of ask) (six_of live)) p.
Proof.
  intros ask live core (A & B) (C & D) p.
  destruct p; cbn; try reflexivity;
    try match goal with |- _ || ask ?x = _ => rewrite (A x), orb_true_r by reflexivity; reflexivity end.
  rewrite <- B, <- D. reflexivity.
Qed.

Lemma init_step : forall ask live core t,
  shaped ask true -> shaped live core -> (core = false -> forall p, live p = false) ->
  stands t (between live core) -> tidy t ->
  stands (t ++ initialize_trace ask live) (between (fun p => live p || ask p) true)
  /\ tidy (t ++ initialize_trace ask live).
Proof.
  intros ask live core t Sa Sl Dn St Td.
  pose proof (shaped_fun _ _ Sa) as Fa. pose proof (shaped_fun _ _ Sl) as Fl.
  rewrite (init_ext _ _ _ _ Fa Fl).
  pose proof (between_ext _ _ core Fl) as Eb.
  pose proof (between_ext _ _ true (or6_fun _ _ _ Sa Sl)) as Eo.
  destruct core.
  - split.
    + eapply stands_same; [|apply stands_app, St].
      eapply same_trans; [apply notes_ext, Eb|].
      eapply same_trans; [|apply same_sym, Eo].
      apply same_st_spec.
      destruct init_leads as [L _]. rewrite forallb_forall in L.
      specialize (L _ (sixes_all (six_of ask))). rewrite forallb_forall in L.
      apply (L _ (sixes_all (six_of live))).
    + eapply all_allowed_sound; [exact St|exact Td|].
      rewrite (all_allowed_ext _ _ _ Eb).
      destruct init_checked as [L _]. rewrite forallb_forall in L.
      specialize (L _ (sixes_all (six_of ask))). rewrite forallb_forall in L.
      apply (L _ (sixes_all (six_of live))).
  - assert (Z6 : six_of live = zero6).
    { unfold six_of. rewrite !(Dn eq_refl). reflexivity. }
    rewrite Z6 in *. split.
    + eapply stands_same; [|apply stands_app, St].
      eapply same_trans; [apply notes_ext, Eb|].
      eapply same_trans; [|apply same_sym, Eo].
      apply same_st_spec.
      destruct init_leads as [_ L]. rewrite forallb_forall in L.
      apply (L _ (sixes_all (six_of ask))).
    + eapply all_allowed_sound; [exact St|exact Td|].
      rewrite (all_allowed_ext _ _ _ Eb).
      destruct init_checked as [_ L]. rewrite forallb_forall in L.
      apply (L _ (sixes_all (six_of ask))).
Qed.

Lemma fin_step : forall live t, shaped live true -> stands t (between live true) -> tidy t ->
  stands (t ++ finalize_trace live) (between (fun _ => false) false)
  /\ tidy (t ++ finalize_trace live).
Proof.
  intros live t Sl St Td.
  pose proof (shaped_fun _ _ Sl) as Fl.
  rewrite (fin_ext _ _ Fl).
  pose proof (between_ext _ _ true Fl) as Eb.
  split.
  - eapply stands_same; [|apply stands_app, St].
    eapply same_trans; [apply notes_ext, Eb|].
    eapply same_trans; [apply same_st_spec|].
    + pose proof fin_leads as L. rewrite forallb_forall in L.
      apply (L _ (sixes_all (six_of live))).
    + repeat split.
  - eapply all_allowed_sound; [exact St|exact Td|].
    rewrite (all_allowed_ext _ _ _ Eb).
    pose proof fin_checked as L. rewrite forallb_forall in L.
    apply (L _ (sixes_all (six_of live))).
Qed.

Lemma repeat_snoc : forall A (x : A) n, repeat x n ++ [x] = repeat x (S n).
Proof.
  intros A x; induction n as [|n IH]; [reflexivity|]. cbn [repeat app] in *. rewrite IH. reflexivity.
Qed.

Lemma story_init : forall ask live p l, ask KDesc = true -> ask KMap = true ->
  story p (live p) l ->
  story p (live p || ask p) (l ++ deeds p (initialize_trace ask live)).
Proof.
  intros ask live p l D M Q. rewrite deeds_init by assumption. unfold story in *.
  destruct (live p); cbn [orb negb andb].
  - destruct Q as (l1 & o & -> & L & O). rewrite andb_false_r. cbn [app].
    destruct O as [E|n N1 N2].
    + exists l1, [Create]. split; [|split; [exact L|constructor; exact E]].
      destruct E; subst p; rewrite app_nil_r; reflexivity.
    + destruct (ask p).
      * exists l1, (Create :: repeat Start (S (S n))).
        split; [|split; [exact L|constructor; assumption]].
        rewrite <- app_assoc. f_equal. cbn [app]. f_equal. rewrite <- (repeat_snoc _ Start (S n)).
        destruct p; congruence || reflexivity.
      * exists l1, (Create :: repeat Start (S n)).
        split; [|split; [exact L|constructor; assumption]].
        destruct p; congruence || (rewrite app_nil_r; reflexivity).
  - rewrite andb_true_r. destruct (ask p).
    + exists l, (match p with KDesc | KMap => [Create] | _ => Create :: repeat Start 1 end).
      split; [destruct p; reflexivity|]. split; [exact Q|].
      destruct p; try (apply open_started; discriminate); apply open_plain; auto.
    + destruct p; cbn [app]; rewrite app_nil_r; exact Q.
Qed.

Lemma story_fin : forall live p l, story p (live p) l -> lives p (l ++ deeds p (finalize_trace live)).
Proof.
  intros live p l Q. rewrite deeds_fin. unfold story in Q. destruct (live p).
  - destruct Q as (l1 & o & -> & L & O). rewrite <- app_assoc. constructor; assumption.
  - rewrite app_nil_r. exact Q.
Qed.

Lemma good_initialize : forall m d s z s' t t', good s t ->
  initialize m d s = Some (z, s', t') -> good s' (t ++ t').
Proof.
  intros m d s z s' t t' G E. unfold initialize in E.
  destruct (p_ctx s) as [g|] eqn:Ec; [|discriminate].
  destruct (d && _); [discriminate|].
  pose proof (f_equal (fun o => match o with Some (_, a, _) => a | None => s end) E) as Es.
  pose proof (f_equal (fun o => match o with Some (_, _, a) => a | None => t end) E) as Et.
  cbv beta iota in Es, Et. subst s' t'. clear E.
  destruct G as [A B C D F]. unfold live_in, inited_in in A, B, C, F. rewrite Ec in *.
  destruct (init_step (asked m) (g_live g) (g_inited g) t (asked_shaped m) A B C D) as [X Y].
  constructor; unfold live_in, inited_in; cbn [p_ctx g_live g_inited].
  - split.
    + intros p Hp. rewrite (proj1 (asked_shaped m) p Hp). apply orb_true_r.
    + destruct A as [_ A]. rewrite A. reflexivity.
  - discriminate.
  - exact X.
  - exact Y.
  - intro p. rewrite deeds_app. apply story_init; [reflexivity|reflexivity|apply F].
Qed.

Lemma good_finalize : forall s z s' t t', good s t ->
  finalize s = Some (z, s', t') -> good s' (t ++ t').
Proof.
  intros s z s' t t' G E. unfold finalize in E.
  destruct (p_ctx s) as [g|] eqn:Ec.
  2:{ injection E as _ <- <-. rewrite app_nil_r. exact G. }
  destruct (_ >? 0)%Z.
  { injection E as _ <- <-. rewrite app_nil_r. eapply good_same; [| |exact G];
      unfold live_in, inited_in; rewrite Ec; reflexivity. }
  injection E as _ <- <-. destruct G as [A B C D F].
  unfold live_in, inited_in in A, B, C, F. rewrite Ec in *.
  destruct (g_inited g) eqn:Eg.
  - destruct (fin_step _ t A C D) as [X Y].
    constructor; unfold live_in, inited_in; cbn [p_ctx].
    + split; reflexivity.
    + reflexivity.
    + exact X.
    + exact Y.
    + intro p. rewrite deeds_app. apply story_fin, F.
  - rewrite app_nil_r. constructor; unfold live_in, inited_in; cbn [p_ctx].
    + split; reflexivity.
    + reflexivity.
    + eapply stands_same; [|exact C]. apply between_ext. apply B. reflexivity.
    + exact D.
    + intro p. specialize (F p). rewrite (B eq_refl) in F. exact F.
Qed.

Lemma init_globals_same : forall s, (forall p, live_in (init_globals s) p = live_in s p)
  /\ inited_in (init_globals s) = inited_in s.
Proof.
  intro s. unfold init_globals, live_in, inited_in. destruct (p_ctx s) eqn:E; cbn; rewrite ?E; auto.
Qed.

Lemma good_init_globals : forall s t, good s t -> good (init_globals s) t.
Proof.
  intros s t G. unfold init_globals. destruct (p_ctx s) eqn:E; [exact G|].
  eapply good_same; [| |exact G]; unfold live_in, inited_in; rewrite E; reflexivity.
Qed.

Lemma good_perform : forall c s z s' t t', good s t ->
  perform c s = Some (z, s', t') -> good s' (t ++ t').
Proof.
  intros c s z s' t t' G E. destruct c; cbn [perform] in E.
  - injection E as _ <- <-. rewrite app_nil_r. apply good_init_globals, G.
  - eapply good_initialize; [apply good_init_globals, G|exact E].
  - eapply good_initialize; eauto.
  - eapply good_finalize; eauto.
  - injection E as _ <- <-. rewrite app_nil_r. eapply good_same; [| |exact G]; reflexivity.
  - unfold ok in E. destruct (p_ctx s) eqn:Ec; injection E as _ <- <-; rewrite app_nil_r; auto.
    eapply good_same; [| |exact G]; unfold live_in, inited_in; rewrite Ec; reflexivity.
  - unfold through in E. destruct (p_ctx s) eqn:Ec; [|discriminate].
    destruct (g_live _ _); [|discriminate]. injection E as _ <- <-. rewrite app_nil_r. exact G.
  - unfold through in E. destruct (p_ctx s) eqn:Ec; [|discriminate].
    destruct (g_live _ _); [|discriminate]. injection E as _ <- <-. rewrite app_nil_r. exact G.
Qed.

Lemma performs_snoc : forall cs c s,
  performs (cs ++ [c]) s =
  match performs cs s with
  | None => None
  | Some (zs, s1, t1) =>
      match perform c s1 with
      | None => None
      | Some (z, s2, t2) => Some (zs ++ [z], s2, t1 ++ t2)
      end
  end.
Proof.
  induction cs as [|a cs IH]; intros c s; cbn [performs app].
  - destruct (perform c s) as [[[z s1] t1]|]; [|reflexivity]. rewrite app_nil_r. reflexivity.
  - destruct (perform a s) as [[[z s1] t1]|]; [|reflexivity]. rewrite IH.
    destruct (performs cs s1) as [[[zs s2] t2]|]; [|reflexivity].
    destruct (perform c s2) as [[[z3 s3] t3]|]; [|reflexivity].
    rewrite app_assoc. reflexivity.
Qed.

Lemma performs_good : forall cs zs s t, performs cs at_main = Some (zs, s, t) -> good s t.
Proof.
  induction cs as [|c cs IH] using rev_ind; intros zs s t E.
  - injection E as _ <- <-. exact good_start.
  - rewrite performs_snoc in E. destruct (performs cs at_main) as [[[zs1 s1] t1]|]; [|discriminate].
    destruct (perform c s1) as [[[z s2] t2]|] eqn:Ep; [|discriminate].
    injection E as _ <- <-. eapply good_perform; [eapply IH; reflexivity|exact Ep].
Qed.

Theorem lives_lemma : forall cs zs s t p, performs cs at_main = Some (zs, s, t) ->
  lives p (deeds p t)
  \/ exists l o, deeds p t = l ++ o /\ lives p l /\ opening p o.
Proof.
  intros cs zs s t p E. pose proof (go_story _ _ (performs_good _ _ _ _ E) p) as Q.
  unfold story in Q. destruct (live_in s p); auto.
Qed.

Theorem order_lemma : forall cs zs s t before h after,
  performs cs at_main = Some (zs, s, t) -> t = before ++ h :: after -> in_order before h.
Proof.
  intros cs zs s t b h a E. exact (go_tidy _ _ (performs_good _ _ _ _ E) b h a).
Qed.

(* ---- counting ---- *)

Lemma outstanding_app : forall a b, outstanding (a ++ b) = (outstanding a + outstanding b)%Z.
Proof.
  induction a as [|c a IH]; intro b; [reflexivity|].
  destruct c; cbn [app outstanding]; rewrite IH; lia.
Qed.

Lemma paired_prefix : forall a b, paired (a ++ b) -> paired a.
Proof.
  intros a b H l r ->. apply (H l (r ++ b)). rewrite app_assoc. reflexivity.
Qed.

Lemma snoc_split : forall A (l : list A) x a b, l ++ [x] = a ++ b ->
  (b = [] /\ a = l ++ [x]) \/ exists b', b = b' ++ [x] /\ l = a ++ b'.
Proof.
  intros A l x a b E. destruct b as [|y b _] using rev_ind.
  - left. rewrite app_nil_r in E. auto.
  - right. rewrite app_assoc in E. apply app_inj_tail in E as [-> ->]. eauto.
Qed.

Lemma paired_snoc : forall cs c, paired (cs ++ [c]) <-> paired cs /\ (0 <= outstanding (cs ++ [c]))%Z.
Proof.
  intros cs c. split.
  - intro H. split; [eapply paired_prefix; exact H|]. apply (H _ []). rewrite app_nil_r. reflexivity.
  - intros [H H0] l r E. apply snoc_split in E as [[-> ->]|(b & -> & ->)]; [exact H0|].
    apply (H l b). reflexivity.
Qed.

Definition up_since (l r : list call) : Prop :=
  outstanding l = 0%Z
  /\ forall r1 r2, r = r1 ++ r2 -> r1 <> [] -> (0 < outstanding (l ++ r1))%Z.

Lemma up_since_snoc : forall l r c, up_since l r -> (0 < outstanding (l ++ r ++ [c]))%Z ->
  up_since l (r ++ [c]).
Proof.
  intros l r c [H0 H] P. split; [exact H0|]. intros r1 r2 E N.
  apply snoc_split in E as [[-> ->]|(b & -> & ->)]; [exact P|]. eapply H; [reflexivity|exact N].
Qed.

Lemma up_since_prefix : forall l r r', up_since l (r ++ r') -> up_since l r.
Proof.
  intros l r r' [H0 H]. split; [exact H0|]. intros r1 r2 -> N.
  apply (H r1 (r2 ++ r')); [rewrite app_assoc; reflexivity|exact N].
Qed.

Lemma up_since_exists : forall cs, paired cs -> exists l r, cs = l ++ r /\ up_since l r.
Proof.
  induction cs as [|c cs IH] using rev_ind; intro P.
  - exists [], []. split; [reflexivity|]. split; [reflexivity|]. intros r1 r2 E N.
    destruct r1; [congruence|discriminate].
  - apply paired_snoc in P as [P P0]. destruct (IH P) as (l & r & -> & U).
    destruct (Z.eq_dec (outstanding ((l ++ r) ++ [c])) 0) as [Z0|Z0].
    + exists ((l ++ r) ++ [c]), []. rewrite app_nil_r. split; [reflexivity|]. split; [exact Z0|].
      intros r1 r2 E N. destruct r1; [congruence|discriminate].
    + exists l, (r ++ [c]). rewrite app_assoc. split; [reflexivity|].
      apply up_since_snoc; [exact U|]. rewrite app_assoc. lia.
Qed.

Definition wants (c : call) : option Z :=
  match c with CInit m _ | CInitWith m _ => Some m | _ => None end.

Lemma requested_alt : forall b cs, requested b cs <->
  exists l r m c, cs = l ++ r /\ up_since l r /\ In c r /\ wants c = Some m /\ Z.land m b <> 0%Z.
Proof.
  intros b cs. split.
  - intros (l & r & m & d & E & Z0 & U & [I1|I1] & L).
    + exists l, r, m, (CInit m d). repeat split; auto.
    + exists l, r, m, (CInitWith m d). repeat split; auto.
  - intros (l & r & m & c & E & [Z0 U] & I1 & W & L).
    destruct c; try discriminate; injection W as ->; exists l, r, m, dump; repeat split; auto.
Qed.

Lemma requested_up : forall b cs, requested b cs -> (0 < outstanding cs)%Z.
Proof.
  intros b cs Q. apply requested_alt in Q as (l & r & m & c & -> & [Z0 U] & I1 & _).
  apply (U r []); [rewrite app_nil_r; reflexivity|]. intros ->. destruct I1.
Qed.

Lemma requested_snoc : forall b cs c, paired (cs ++ [c]) ->
  (requested b (cs ++ [c]) <->
   (0 < outstanding (cs ++ [c]))%Z
   /\ (requested b cs \/ exists m, wants c = Some m /\ Z.land m b <> 0%Z)).
Proof.
  intros b cs c P. split.
  - intro Q. split; [eapply requested_up; exact Q|].
    apply requested_alt in Q as (l & r & m & c1 & E & U & I1 & W & L).
    apply snoc_split in E as [[-> ->]|(r' & -> & ->)]; [destruct I1|].
    apply in_app_or in I1 as [I1|[<-|[]]]; [|right; eauto].
    left. apply requested_alt. exists l, r', m, c1. repeat split; auto.
    + apply (proj1 U).
    + apply (up_since_prefix _ _ _ U).
  - intros [P0 Q]. apply requested_alt. destruct Q as [Q|(m & W & L)].
    + apply requested_alt in Q as (l & r & m & c1 & -> & U & I1 & W & L).
      exists l, (r ++ [c]), m, c1. rewrite app_assoc. split; [reflexivity|].
      split; [apply up_since_snoc; [exact U|rewrite app_assoc; exact P0]|].
      split; [apply in_or_app; auto|]. auto.
    + destruct (up_since_exists cs) as (l & r & -> & U); [eapply paired_prefix; exact P|].
      exists l, (r ++ [c]), m, c. rewrite app_assoc. split; [reflexivity|].
      split; [apply up_since_snoc; [exact U|rewrite app_assoc; exact P0]|].
      split; [apply in_or_app; right; left; reflexivity|]. auto.
Qed.

Lemma provided_snoc : forall cs c,
  provided (cs ++ [c]) <->
  match c with
  | CConfig => True
  | CFinalize | CInit _ _ | CInitWith _ _ =>
      (0 < outstanding (cs ++ [c]))%Z
      \/ (c <> CFinalize /\ exists a b, cs = a ++ b /\ ~ In CFinalize b /\ (a = [] \/ In CConfig b))
  | _ => provided cs
  end.
Proof.
  intros cs c.
  assert (Fwd : provided (cs ++ [c]) -> c <> CConfig ->
    (0 < outstanding (cs ++ [c]))%Z
      \/ (c <> CFinalize /\ exists a b, cs = a ++ b /\ ~ In CFinalize b /\ (a = [] \/ In CConfig b))).
  { intros [Q|(a & b & E & N & Q)] Nc; [left; exact Q|]. right.
    apply snoc_split in E as [[-> ->]|(b' & -> & ->)].
    - destruct Q as [Q|[]]. destruct cs; discriminate.
    - split; [intros ->; apply N, in_or_app; right; left; reflexivity|].
      exists a, b'. split; [reflexivity|]. split; [intro F; apply N, in_or_app; auto|].
      destruct Q as [Q|Q]; auto. right. apply in_app_or in Q as [Q|[Q|[]]]; auto; congruence. }
  assert (Bwd : (c <> CFinalize /\ exists a b, cs = a ++ b /\ ~ In CFinalize b /\ (a = [] \/ In CConfig b))
                -> provided (cs ++ [c])).
  { intros (Nc & a & b & -> & N & Q). right. exists a, (b ++ [c]). rewrite app_assoc.
    split; [reflexivity|]. split.
    - intro F. apply in_app_or in F as [F|[F|[]]]; auto.
    - destruct Q; auto. right. apply in_or_app. auto. }
  assert (Same : outstanding [c] = 0%Z -> c <> CConfig -> c <> CFinalize -> (provided (cs ++ [c]) <-> provided cs)).
  { intros Z0 N1 N2. split.
    - intro Q. apply Fwd in Q; [|exact N1]. rewrite outstanding_app, Z0 in Q.
      destruct Q as [Q|[_ Q]]; [left; lia|right; exact Q].
    - intros [Q|Q]; [left; rewrite outstanding_app, Z0; lia|apply Bwd; auto]. }
  destruct c; try (apply Same; [reflexivity|discriminate|discriminate]).
  - split; [trivial|]. intros _. right. exists cs, [CConfig]. split; [reflexivity|].
    split; [intros [F|[]]; discriminate|]. right. left. reflexivity.
  - split; [intro Q; apply Fwd; [exact Q|discriminate]|]. intros [Q|Q]; [left; exact Q|apply Bwd, Q].
  - split; [intro Q; apply Fwd; [exact Q|discriminate]|]. intros [Q|Q]; [left; exact Q|apply Bwd, Q].
  - split; [intro Q; apply Fwd; [exact Q|discriminate]|]. intros [Q|Q]; [left; exact Q|apply Bwd, Q].
Qed.

Record agrees (cs : list call) (s : process) : Prop := {
  ag_count : p_count s = outstanding cs;
  ag_inited : inited_in s = true <-> (0 < outstanding cs)%Z;
  ag_ctx : p_ctx s <> None <-> provided cs;
  ag_live : forall p b, bit_of p = Some b -> (live_in s p = true <-> requested b cs)
}.

Lemma ctx_of_inited : forall s, inited_in s = true -> p_ctx s <> None.
Proof. intros s E F. unfold inited_in in E. rewrite F in E. discriminate. Qed.

Lemma asked_bit : forall m p b, bit_of p = Some b -> (asked m p = true <-> Z.land m b <> 0%Z).
Proof.
  intros m p b E. unfold asked. rewrite E. destruct (Z.eqb_spec (Z.land m b) 0); cbn; split; congruence.
Qed.

Lemma agrees_initialize : forall cs c m d s z s' t', wants c = Some m -> paired cs -> agrees cs s ->
  initialize m d (match c with CInit _ _ => init_globals s | _ => s end) = Some (z, s', t') ->
  agrees (cs ++ [c]) s'.
Proof.
  intros cs c m d s z s' t' W P [A B C D] E.
  assert (O : outstanding (cs ++ [c]) = (outstanding cs + 1)%Z).
  { rewrite outstanding_app. destruct c; try discriminate; cbn [outstanding]; lia. }
  assert (P0 : (0 <= outstanding cs)%Z) by (apply (P cs []); rewrite app_nil_r; reflexivity).
  assert (P1 : paired (cs ++ [c])) by (apply paired_snoc; split; [exact P|lia]).
  set (s0 := match c with CInit _ _ => init_globals s | _ => s end) in *.
  assert (S0 : (forall p, live_in s0 p = live_in s p) /\ p_count s0 = p_count s).
  { subst s0. destruct c; try discriminate; try (split; reflexivity).
    split; [apply (proj1 (init_globals_same s))|].
    unfold init_globals. destruct (p_ctx s); reflexivity. }
  destruct S0 as [S1 S2]. clearbody s0.
  unfold initialize in E. destruct (p_ctx s0) as [g|] eqn:Ec; [|discriminate].
  destruct (d && _); [discriminate|].
  pose proof (f_equal (fun o => match o with Some (_, a, _) => a | None => s end) E) as Es.
  cbv beta iota in Es. subst s'. clear E.
  constructor.
  - cbn [p_count]. rewrite S2, A, O. reflexivity.
  - unfold inited_in. cbn [p_ctx g_inited]. rewrite O. split; [lia|reflexivity].
  - cbn [p_ctx]. split; [|intros _; discriminate]. intros _. left. lia.
  - intros p b Hb. rewrite requested_snoc by exact P1.
    unfold live_in at 1. cbn [p_ctx g_live].
    assert (L : g_live g p = live_in s p).
    { rewrite <- S1. unfold live_in. rewrite Ec. reflexivity. }
    rewrite L, orb_true_iff, (D p b Hb), (asked_bit m p b Hb). rewrite W. split.
    + intros [Q|Q]; (split; [lia|]); [left; exact Q|right; eauto].
    + intros [_ [Q|(m1 & Q & R)]]; [left; exact Q|right; congruence].
Qed.

Lemma agrees_quiet : forall cs c s s', paired (cs ++ [c]) ->
  outstanding [c] = 0%Z -> wants c = None -> c <> CConfig -> c <> CFinalize ->
  agrees cs s -> p_ctx s' = p_ctx s -> p_count s' = p_count s -> agrees (cs ++ [c]) s'.
Proof.
  intros cs c s s' P O W N1 N2 [A B C D] E1 E2.
  assert (O' : outstanding (cs ++ [c]) = outstanding cs) by (rewrite outstanding_app, O; lia).
  constructor.
  - rewrite E2, A, O'. reflexivity.
  - unfold inited_in in *. rewrite E1, O'. exact B.
  - rewrite E1, C. rewrite provided_snoc. destruct c; try discriminate; congruence || reflexivity.
  - intros p b Hb. rewrite requested_snoc by exact P. unfold live_in in *. rewrite E1, (D p b Hb), O', W.
    split; [intro Q; split; [eapply requested_up; exact Q|left; exact Q]|].
    intros [_ [Q|(m & F & _)]]; [exact Q|discriminate].
Qed.

Lemma agrees_perform : forall cs c s z s' t', paired (cs ++ [c]) -> agrees cs s -> 
  (inited_in s = false -> forall p, live_in s p = false) ->
  perform c s = Some (z, s', t') -> agrees (cs ++ [c]) s'.
Proof.
  intros cs c s z s' t' P G Dn E.
  pose proof (paired_prefix _ _ P) as P1. pose proof (proj2 (proj1 (paired_snoc _ _) P)) as P0.
  destruct c; cbn [perform] in E.
  - injection E as _ <- _. destruct G as [A B C D].
    assert (O' : outstanding (cs ++ [CConfig]) = outstanding cs) by (rewrite outstanding_app; cbn; lia).
    constructor.
    + rewrite O', <- A. unfold init_globals. destruct (p_ctx s); reflexivity.
    + rewrite (proj2 (init_globals_same s)), O'. exact B.
    + rewrite provided_snoc. split; [trivial|]. intros _. unfold init_globals.
      destruct (p_ctx s) eqn:Ec; cbn; [rewrite Ec|]; discriminate.
    + intros p b Hb. rewrite (proj1 (init_globals_same s)), requested_snoc by exact P.
      rewrite (D p b Hb), O'. split.
      * intro Q. split; [eapply requested_up; exact Q|left; exact Q].
      * intros [_ [Q|(m & F & _)]]; [exact Q|discriminate].
  - eapply (agrees_initialize cs (CInit mask dump)); [reflexivity|exact P1|exact G|exact E].
  - eapply (agrees_initialize cs (CInitWith mask dump)); [reflexivity|exact P1|exact G|exact E].
  - unfold finalize in E. pose proof G as [A B C D].
    assert (O' : outstanding (cs ++ [CFinalize]) = (outstanding cs - 1)%Z)
      by (rewrite outstanding_app; cbn; lia).
    destruct (p_ctx s) as [g|] eqn:Ec.
    2:{ exfalso. rewrite O' in P0. assert (I1 : inited_in s = true) by (apply B; lia).
        apply ctx_of_inited in I1. congruence. }
    destruct (Z.gtb_spec (p_count s - 1) 0) as [K|K].
    + injection E as _ <- _. constructor.
      * cbn [p_count]. lia.
      * unfold inited_in in *. rewrite Ec in B. cbn [p_ctx]. rewrite B, O'. lia.
      * cbn [p_ctx]. split; [|discriminate]. intros _. left. lia.
      * intros p b Hb. specialize (D p b Hb). unfold live_in in *. rewrite Ec in D. cbn [p_ctx].
        rewrite requested_snoc by exact P. rewrite D, O'. split.
        -- intro Q. split; [lia|left; exact Q].
        -- intros [_ [Q|(m & F & _)]]; [exact Q|discriminate].
    + injection E as _ <- _. constructor.
      * cbn [p_count]. lia.
      * unfold inited_in. cbn [p_ctx]. split; [discriminate|lia].
      * cbn [p_ctx]. rewrite provided_snoc. split; [congruence|]. intros [Q|[Q _]]; [lia|congruence].
      * intros p b Hb. unfold live_in. cbn [p_ctx]. split; [discriminate|]. intro Q.
        apply requested_up in Q. lia.
  - injection E as _ <- _. eapply agrees_quiet; [exact P|reflexivity|reflexivity|discriminate|discriminate|exact G|reflexivity|reflexivity].
  - unfold ok in E. destruct (p_ctx s) eqn:Ec; injection E as _ <- _;
    (eapply agrees_quiet; [exact P|reflexivity|reflexivity|discriminate|discriminate|exact G| |]);
      cbn; congruence.
  - unfold through in E. destruct (p_ctx s) eqn:Ec; [|discriminate].
    destruct (g_live _ _); [|discriminate]. injection E as _ <- _.
    eapply agrees_quiet; [exact P|reflexivity|reflexivity|discriminate|discriminate|exact G| |]; reflexivity.
  - unfold through in E. destruct (p_ctx s) eqn:Ec; [|discriminate].
    destruct (g_live _ _); [|discriminate]. injection E as _ <- _.
    eapply agrees_quiet; [exact P|reflexivity|reflexivity|discriminate|discriminate|exact G| |]; reflexivity.
Qed.

Lemma no_requests : forall b, ~ requested b [].
Proof. intros b Q. apply requested_up in Q. cbn in Q. lia. Qed.

Lemma agrees_start : agrees [] at_main.
Proof.
  constructor.
  - reflexivity.
  - cbn. split; [discriminate|lia].
  - cbn. split; [|discriminate]. intros _. right. exists [], []. cbn. auto.
  - intros p b _. cbn. split; [discriminate|]. intro Q. destruct (no_requests _ Q).
Qed.

Lemma performs_agrees : forall cs zs s t, paired cs -> performs cs at_main = Some (zs, s, t) ->
  agrees cs s.
Proof.
  induction cs as [|c cs IH] using rev_ind; intros zs s t P E.
  - injection E as _ <- _. exact agrees_start.
  - rewrite performs_snoc in E. destruct (performs cs at_main) as [[[zs1 s1] t1]|] eqn:E1; [|discriminate].
    destruct (perform c s1) as [[[z s2] t2]|] eqn:Ep; [|discriminate].
    injection E as _ <- _. eapply agrees_perform; [exact P| | |exact Ep].
    + eapply IH; [eapply paired_prefix; exact P|reflexivity].
    + exact (go_down _ _ (performs_good _ _ _ _ E1)).
Qed.

(* ---- what a user may rely on ---- *)

Theorem initialized_lemma : forall cs zs s t, paired cs -> performs cs at_main = Some (zs, s, t) ->
  (is_initialized 0 s = true <-> (0 < outstanding cs)%Z)
  /\ forall b, known b -> (is_initialized b s = true <-> requested b cs).
Proof.
  intros cs zs s t P E. pose proof (performs_agrees _ _ _ _ P E) as [A B C D]. split.
  - rewrite <- B. unfold is_initialized, inited_in. destruct (p_ctx s); reflexivity.
  - intros b K.
    assert (L : forall p, bit_of p = Some b ->
       (match p_ctx s with None => false | Some g => g_live g p end = true <-> requested b cs)).
    { intros p Hp. rewrite <- (D p b Hp). unfold live_in. destruct (p_ctx s); reflexivity. }
    unfold is_initialized.
    destruct K as [<-|[<-|[<-|[<-|[<-|[<-|[]]]]]]]; cbn.
    + apply (L KPub eq_refl).
    + apply (L KSub eq_refl).
    + apply (L KServer eq_refl).
    + apply (L KMon eq_refl).
    + apply (L KLog eq_refl).
    + apply (L KTime eq_refl).
Qed.

Lemma new_lemma : forall cs zs s t m, paired cs -> performs cs at_main = Some (zs, s, t) ->
  (something_new (asked m) (live_in s) = false <->
   (0 < outstanding cs)%Z /\ forall b, known b -> Z.land m b <> 0%Z -> requested b cs).
Proof.
  intros cs zs s t m P E. pose proof (performs_agrees _ _ _ _ P E) as [A B C D].
  pose proof (performs_good _ _ _ _ E) as G.
  assert (X : something_new (asked m) (live_in s) = false <->
              forall p, asked m p = true -> live_in s p = true).
  { unfold something_new. split.
    - intros F p Ap. destruct (live_in s p) eqn:L; [reflexivity|].
      assert (F' : existsb (fun p => asked m p && negb (live_in s p)) create_order = true).
      { apply existsb_exists. exists p. split; [apply every_in|]. rewrite Ap, L. reflexivity. }
      congruence.
    - intro F. apply not_true_is_false. intro F'. apply existsb_exists in F' as (p & _ & Q).
      apply andb_prop in Q as [Q1 Q2]. rewrite (F p Q1) in Q2. discriminate. }
  rewrite X. split.
  - intro F. split.
    + apply B. rewrite <- (proj1 (go_shape _ _ G) KMap eq_refl). apply F. reflexivity.
    + intros b K L.
      assert (Q : exists p, bit_of p = Some b).
      { destruct K as [<-|[<-|[<-|[<-|[<-|[<-|[]]]]]]].
        - exists KPub. reflexivity. - exists KSub. reflexivity. - exists KServer. reflexivity.
        - exists KMon. reflexivity. - exists KLog. reflexivity. - exists KTime. reflexivity. }
      destruct Q as (p & Hp). apply (D p b Hp), F, (asked_bit m p b Hp), L.
  - intros [O F] p Ap. destruct (bit_of p) as [b|] eqn:Hp.
    + apply (D p b Hp), F; [|apply (asked_bit m p b Hp), Ap].
      unfold known. destruct p; try discriminate; injection Hp as <-; cbn; auto 8.
    + rewrite (proj1 (go_shape _ _ G) p Hp). apply B, O.
Qed.

Lemma new_live_ext : forall ask l l', (forall p, l p = l' p) -> something_new ask l = something_new ask l'.
Proof.
  intros ask l l' E. unfold something_new, create_order. cbn [existsb]. rewrite !E. reflexivity.
Qed.

Theorem returns_lemma : forall cs c zs z s t, paired (cs ++ [c]) ->
  performs (cs ++ [c]) at_main = Some (zs ++ [z], s, t) ->
  match c with
  | CInit m _ | CInitWith m _ =>
      (z = 0%Z \/ z = 1%Z)
      /\ (z = 1%Z <-> (0 < outstanding cs)%Z
                      /\ forall b, known b -> Z.land m b <> 0%Z -> requested b cs)
  | CFinalize => z = 0%Z
  | _ => True
  end.
Proof.
  intros cs c zs z s t P E. rewrite performs_snoc in E.
  destruct (performs cs at_main) as [[[zs1 s1] t1]|] eqn:E1; [|discriminate].
  destruct (perform c s1) as [[[z1 s2] t2]|] eqn:Ep; [|discriminate].
  assert (Ez : z1 = z).
  { pose proof (f_equal (fun o => match o with Some (a, _, _) => a | None => [] end) E) as Q.
    cbv beta iota in Q. apply app_inj_tail in Q. tauto. }
  subst z1. clear E. pose proof (paired_prefix _ _ P) as P1.
  assert (I : forall m d s0, (forall p, live_in s0 p = live_in s1 p) ->
     initialize m d s0 = Some (z, s2, t2) ->
     (z = 0%Z \/ z = 1%Z)
      /\ (z = 1%Z <-> (0 < outstanding cs)%Z
                      /\ forall b, known b -> Z.land m b <> 0%Z -> requested b cs)).
  { intros m d s0 L Ei. rewrite <- (new_lemma cs zs1 s1 t1 m P1 E1).
    rewrite <- (new_live_ext _ _ _ L).
    unfold initialize in Ei. unfold live_in. destruct (p_ctx s0) as [g|]; [|discriminate].
    destruct (d && _); [discriminate|].
    pose proof (f_equal (fun o => match o with Some (a, _, _) => a | None => 5%Z end) Ei) as Q.
    cbv beta iota in Q. subst z.
    destruct (something_new (asked m) (g_live g)); split; auto; split; congruence. }
  destruct c; auto; cbn [perform] in Ep.
  - eapply I; [|exact Ep]. apply init_globals_same.
  - eapply I; [|exact Ep]. reflexivity.
  - pose proof (performs_agrees _ _ _ _ P1 E1) as [A B C D].
    apply paired_snoc in P as [_ P0]. rewrite outstanding_app in P0. cbn in P0.
    assert (Q : inited_in s1 = true) by (apply B; lia).
    unfold finalize in Ep. unfold inited_in in Q. destruct (p_ctx s1) as [g|]; [|discriminate].
    destruct (_ >? 0)%Z; [congruence|]. rewrite Q in Ep. congruence.
Qed.

Lemma some_none : forall A (x : A), Some x <> None.
Proof. discriminate. Qed.

Lemma initialize_defined : forall m d s,
  initialize m d s <> None <->
  p_ctx s <> None /\ (d = true -> asked m KTime = true \/ live_in s KTime = true).
Proof.
  intros m d s. unfold initialize, live_in. destruct (p_ctx s) as [g|].
  - destruct d; cbn [andb].
    + destruct (g_live g KTime), (asked m KTime); cbn; intuition congruence.
    + split; [intros _; split; discriminate|intros _; discriminate].
  - split; [congruence|]. intros [Q _]. congruence.
Qed.

Lemma step_defined : forall cs c zs s t, paired cs -> performs cs at_main = Some (zs, s, t) ->
  (perform c s <> None <->
   match c with
    | CInit mask dump =>
        dump = true -> Z.land mask init_timesync <> 0%Z \/ requested init_timesync cs
    | CInitWith mask dump =>
        provided cs
        /\ (dump = true -> Z.land mask init_timesync <> 0%Z \/ requested init_timesync cs)
    | CPublisher => requested init_publisher cs
    | CSubscriber => requested init_subscriber cs
    | _ => True
    end).
Proof.
  intros cs c zs s t P E. pose proof (performs_agrees _ _ _ _ P E) as [A B C D].
  assert (Th : forall p b, bit_of p = Some b -> (through p s <> None <-> requested b cs)).
  { intros p b Hb. rewrite <- (D p b Hb). unfold through, live_in. destruct (p_ctx s) as [g|].
    - destruct (g_live g p); split; congruence.
    - split; congruence. }
  assert (T : forall m, (asked m KTime = true \/ live_in s KTime = true) <->
                        (Z.land m init_timesync <> 0%Z \/ requested init_timesync cs)).
  { intro m. rewrite (asked_bit m KTime init_timesync eq_refl), (D KTime init_timesync eq_refl).
    reflexivity. }
  destruct c; cbn [perform].
  - split; [trivial|discriminate].
  - rewrite initialize_defined, (proj1 (init_globals_same s)), <- T. split; [tauto|].
    intro Q. split; [|exact Q]. unfold init_globals. destruct (p_ctx s) eqn:Ec; cbn; congruence.
  - rewrite initialize_defined, C, T. reflexivity.
  - split; [trivial|]. intros _. unfold finalize. destruct (p_ctx s); [|discriminate].
    destruct (_ >? 0)%Z; discriminate.
  - split; [trivial|discriminate].
  - split; [trivial|]. intros _. unfold ok. destruct (p_ctx s); discriminate.
  - apply (Th KPub _ eq_refl).
  - apply (Th KSub _ eq_refl).
Qed.

Lemma careful_snoc : forall cs c, careful (cs ++ [c]) <->
  careful cs /\ match c with
    | CInit mask dump =>
        dump = true -> Z.land mask init_timesync <> 0%Z \/ requested init_timesync cs
    | CInitWith mask dump =>
        provided cs
        /\ (dump = true -> Z.land mask init_timesync <> 0%Z \/ requested init_timesync cs)
    | CPublisher => requested init_publisher cs
    | CSubscriber => requested init_subscriber cs
    | _ => True
    end.
Proof.
  intros cs c. split.
  - intro H. split.
    + intros l x r ->. apply (H l x (r ++ [c])). rewrite <- app_assoc. reflexivity.
    + apply (H cs c []). reflexivity.
  - intros [H Hc] l x r E. destruct r as [|y r _] using rev_ind.
    + apply app_inj_tail in E as [<- <-]. exact Hc.
    + rewrite app_comm_cons, app_assoc in E. apply app_inj_tail in E as [-> ->].
      apply (H l x r). reflexivity.
Qed.

Theorem careful_lemma : forall cs, paired cs -> (performs cs at_main <> None <-> careful cs).
Proof.
  induction cs as [|c cs IH] using rev_ind; intro P.
  - split; [|discriminate]. intros _ l x r E. destruct l; discriminate.
  - pose proof (paired_prefix _ _ P) as P1. rewrite performs_snoc, careful_snoc.
    specialize (IH P1). destruct (performs cs at_main) as [[[zs s] t]|] eqn:E1.
    + rewrite <- (step_defined cs c zs s t P1 E1).
      destruct (perform c s) as [[[z s2] t2]|]; split; try congruence; try tauto.
      intros _. split; [apply IH|]; discriminate.
    + split; [congruence|]. intros [Q _]. apply IH in Q. congruence.
Qed.

(* ---- Ok ---- *)

Lemma pending_snoc : forall cs c, pending (cs ++ [c]) <->
  match c with
  | CRequest => True
  | COk => pending cs /\ ~ provided cs
  | _ => pending cs
  end.
Proof.
  intros cs c.
  assert (Fwd : pending (cs ++ [c]) -> c <> CRequest -> pending cs /\ (c = COk -> ~ provided cs)).
  { intros (l & r & E & Q) N. destruct r as [|y r _] using rev_ind.
    - apply app_inj_tail in E as [_ ->]. congruence.
    - rewrite app_comm_cons, app_assoc in E. apply app_inj_tail in E as [-> ->]. split.
      + exists l, r. split; [reflexivity|]. intros r1 r2 ->. apply (Q r1 (r2 ++ [y])).
        rewrite <- app_assoc. reflexivity.
      + intros ->. apply (Q r []). reflexivity. }
  assert (Bwd : pending cs -> (c = COk -> ~ provided cs) -> pending (cs ++ [c])).
  { intros (l & r & -> & Q) N. exists l, (r ++ [c]). rewrite <- app_assoc. split; [reflexivity|].
    intros r1 r2 E. destruct r2 as [|y r2 _] using rev_ind.
    - apply app_inj_tail in E as [-> ->]. apply N. reflexivity.
    - rewrite app_comm_cons, app_assoc in E. apply app_inj_tail in E as [-> _].
      eapply Q. reflexivity. }
  destruct c; try (split; [intro H; apply Fwd in H; [tauto|discriminate]|intro H; apply Bwd; [exact H|discriminate]]).
  - split; [trivial|]. intros _. exists cs, []. split; [reflexivity|]. intros r1 r2 E.
    destruct r1; discriminate.
  - split.
    + intro H. apply Fwd in H; [|discriminate]. tauto.
    + intros [H1 H2]. apply Bwd; auto.
Qed.

Lemma event_lemma : forall cs zs s t, paired cs -> performs cs at_main = Some (zs, s, t) ->
  (p_event s = true <-> pending cs).
Proof.
  induction cs as [|c cs IH] using rev_ind; intros zs s t P E.
  - injection E as _ <- _. cbn. split; [discriminate|]. intros (l & r & F & _). destruct l; discriminate.
  - rewrite performs_snoc in E. destruct (performs cs at_main) as [[[zs1 s1] t1]|] eqn:E1; [|discriminate].
    destruct (perform c s1) as [[[z s2] t2]|] eqn:Ep; [|discriminate].
    injection E as _ <- _. pose proof (paired_prefix _ _ P) as P1.
    specialize (IH _ _ _ P1 eq_refl). rewrite pending_snoc.
    pose proof (performs_agrees _ _ _ _ P1 E1) as [A B C D].
    assert (Ini : forall m d s0, p_event s0 = p_event s1 -> initialize m d s0 = Some (z, s2, t2) ->
                  p_event s2 = p_event s1).
    { intros m d s0 Q Ei. unfold initialize in Ei. destruct (p_ctx s0); [|discriminate].
      destruct (d && _); [discriminate|].
      pose proof (f_equal (fun o => match o with Some (_, a, _) => a | None => s1 end) Ei) as Es.
      cbv beta iota in Es. subst s2. exact Q. }
    assert (Ig : p_event (init_globals s1) = p_event s1).
    { unfold init_globals. destruct (p_ctx s1); reflexivity. }
    destruct c; cbn [perform] in Ep.
    + injection Ep as _ <- _. rewrite Ig. exact IH.
    + rewrite (Ini _ _ _ Ig Ep). exact IH.
    + rewrite (Ini _ _ _ eq_refl Ep). exact IH.
    + unfold finalize in Ep. destruct (p_ctx s1).
      * destruct (_ >? 0)%Z; injection Ep as _ <- _; exact IH.
      * injection Ep as _ <- _. exact IH.
    + injection Ep as _ <- _. cbn. tauto.
    + unfold ok in Ep. destruct (p_ctx s1) eqn:Ec; injection Ep as _ <- _; cbn [p_event].
      * split; [discriminate|]. intros [_ Q]. exfalso. apply Q, C. congruence.
      * rewrite IH. split; [|tauto]. intro Q. split; [exact Q|]. intro R. apply C in R. congruence.
    + unfold through in Ep. destruct (p_ctx s1); [|discriminate].
      destruct (g_live _ _); [|discriminate]. injection Ep as _ <- _. exact IH.
    + unfold through in Ep. destruct (p_ctx s1); [|discriminate].
      destruct (g_live _ _); [|discriminate]. injection Ep as _ <- _. exact IH.
Qed.

Theorem ok_lemma : forall cs zs z s t, paired cs ->
  performs (cs ++ [COk]) at_main = Some (zs ++ [z], s, t) ->
  (z = 0%Z \/ z = 1%Z) /\ (z = 1%Z <-> provided cs /\ ~ pending cs).
Proof.
  intros cs zs z s t P E. rewrite performs_snoc in E.
  destruct (performs cs at_main) as [[[zs1 s1] t1]|] eqn:E1; [|discriminate].
  cbn [perform] in E. pose proof (event_lemma _ _ _ _ P E1) as V.
  pose proof (performs_agrees _ _ _ _ P E1) as [A B C D].
  unfold ok in E. destruct (p_ctx s1) eqn:Ec.
  - assert (Ez : z = if p_event s1 then 0%Z else 1%Z).
    { pose proof (f_equal (fun o => match o with Some (a, _, _) => a | None => [] end) E) as Q.
      cbv beta iota in Q. apply app_inj_tail in Q as [_ Q]. symmetry. exact Q. }
    assert (Pr : provided cs) by (apply C; congruence).
    destruct (p_event s1); subst z; (split; [auto|]); split.
    + discriminate.
    + intros [_ Q]. exfalso. apply Q, V. reflexivity.
    + intros _. split; [exact Pr|]. intro Q. apply V in Q. discriminate.
    + reflexivity.
  - assert (Ez : z = 0%Z).
    { pose proof (f_equal (fun o => match o with Some (a, _, _) => a | None => [] end) E) as Q.
      cbv beta iota in Q. apply app_inj_tail in Q as [_ Q]. symmetry. exact Q. }
    subst z. split; [auto|]. split; [discriminate|]. intros [Q _]. apply C in Q. congruence.
Qed.

Lemma combination_lemma : forall s,
  is_initialized init_default s = false /\ is_initialized init_all s = false.
Proof. intro s. unfold is_initialized. destruct (p_ctx s); split; reflexivity. Qed.
