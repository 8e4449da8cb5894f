(** Proofs about typed publishers, subscribers and protobuf servers. *)
From Coq Require Import Lia.
From Verif Require Import Base Sample MsgModel MsgSpec.

Lemma filter_neq_in : forall (r x : nat) l, In x (filter (fun y => negb (Nat.eqb y r)) l) <-> In x l /\ x <> r.
Proof.
  intros r x l. rewrite filter_In. destruct (Nat.eqb_spec x r); cbn; intuition congruence.
Qed.

(** ** Shape of the operations *)
Lemma bind_none : forall b s, bind_reader None b s = (s, false).
Proof. easy. Qed.
Lemma bind_some : forall r rd b s, aget r (ts_readers s) = Some rd -> tr_running rd = true ->
  bind_reader (Some r) b s = (set_reader r (TReader (tr_topic rd) true b (tr_buf rd)) s, true).
Proof. intros r rd b s H1 H2. cbn. now rewrite H1, H2. Qed.
Lemma typed_rem_eq : forall sh s, fst (typed_rem sh s) = (fst (bind_reader (sh_reader sh) None s), sh_set_cb None sh).
Proof.
  intros sh s. unfold typed_rem. destruct (bind_reader (sh_reader sh) None s) as [s1 ret].
  destruct sh as [a b c d [e|] f g h]; reflexivity.
Qed.

(** The stopped reader. *)
Definition halted (r : nat) (rd : treader) (s : tstate) : tstate :=
  TState (ts_shells s)
    (aset r (TReader (tr_topic rd) false None (tr_buf rd)) (aset r (TReader (tr_topic rd) true None (tr_buf rd)) (ts_readers s)))
    (filter (fun x => negb (Nat.eqb x r)) (ts_gate s)) (ts_next s) (ts_known s).
Lemma base_destroy_some : forall sh s r rd, sh_created sh = true -> sh_reader sh = Some r ->
  aget r (ts_readers s) = Some rd -> tr_running rd = true ->
  base_destroy sh s = (halted r rd s, sh_set_base None false sh, true).
Proof.
  intros sh s r rd H1 H2 H3 H4. unfold base_destroy. rewrite H1, H2. cbn [negb].
  rewrite (bind_some r rd None s H3 H4). cbn [fst set_reader ts_readers ts_shells ts_gate ts_next ts_known].
  rewrite aget_aset_same. reflexivity.
Qed.
Lemma base_destroy_none : forall sh s, sh_created sh = false -> base_destroy sh s = (s, sh, false).
Proof. intros sh s H. unfold base_destroy. now rewrite H. Qed.

(** ** Owners and readers *)
Definition is_some {X} (x : option X) : bool := match x with Some _ => true | None => false end.
Record sound (q : pending) (s : tstate) : Prop := {
  so_created : forall k sh, aget k (ts_shells s) = Some sh -> sh_created sh = is_some (sh_reader sh);
  so_owns : forall k sh r, aget k (ts_shells s) = Some sh -> sh_reader sh = Some r ->
            exists rd, aget r (ts_readers s) = Some rd /\ tr_running rd = true;
  so_one : forall k k' sh sh' r, aget k (ts_shells s) = Some sh -> aget k' (ts_shells s) = Some sh' ->
            sh_reader sh = Some r -> sh_reader sh' = Some r -> k = k';
  so_owned : forall r rd, aget r (ts_readers s) = Some rd -> tr_running rd = true ->
            exists k sh, aget k (ts_shells s) = Some sh /\ sh_reader sh = Some r;
  so_bound : forall r rd k, aget r (ts_readers s) = Some rd -> tr_running rd = true -> tr_bound rd = Some k ->
            exists sh, aget k (ts_shells s) = Some sh /\
              ((sh_reader sh = Some r /\ sh_cb sh <> None) \/
               exists b shb, q = PdMove k b /\ aget b (ts_shells s) = Some shb /\ sh_reader shb = Some r /\ sh_cb shb <> None);
  so_dead : forall k sh, aget k (ts_shells s) = Some sh -> sh_dead sh = true ->
            q = PdDie k /\ (sh_kind sh <> KMsg -> sh_reader sh = None);
  so_next : forall r rd, aget r (ts_readers s) = Some rd -> (r < ts_next s)%nat;
  so_gate : NoDup (ts_gate s);
  so_gate_iff : forall r, In r (ts_gate s) <-> exists k sh, aget k (ts_shells s) = Some sh /\ sh_reader sh = Some r }.

Ltac look := repeat match goal with
  | H : context [aget ?k (aset ?k' _ _)] |- _ => rewrite aget_aset in H
  | |- context [aget ?k (aset ?k' _ _)] => rewrite aget_aset
  | H : context [eqb ?a ?b] |- _ => let E := fresh "E" in destruct (eqb a b) eqn:E; [apply eqb_true in E; try subst a|apply eqb_false in E]
  | |- context [eqb ?a ?b] => let E := fresh "E" in destruct (eqb a b) eqn:E; [apply eqb_true in E; try subst a|apply eqb_false in E]
  | H : Some _ = Some _ |- _ => injection H as <-
  end.

Lemma sound_init : sound PdNone ts_init.
Proof.
  constructor; cbn; try (intros; discriminate); try constructor.
  - intros [].
  - intros (k & sh & H & _). discriminate.
Qed.

(** Changes of the object that leave its reader alone and do not take away a callback that is bound. *)
Lemma sound_shell : forall q s k sh sh', sound q s -> aget k (ts_shells s) = Some sh ->
  sh_kind sh' = sh_kind sh -> sh_reader sh' = sh_reader sh -> sh_created sh' = sh_created sh -> sh_dead sh' = sh_dead sh ->
  (sh_cb sh' = None -> sh_cb sh = None \/ forall r rd j, sh_reader sh = Some r -> aget r (ts_readers s) = Some rd -> tr_bound rd <> Some j) ->
  sound q (set_shell k sh' s).
Proof.
  intros q s k sh sh' H Hk E0 E1 E2 E3 Ecb. destruct H as [A1 A2 A3 A4 A5 A6 A7 A8 A9].
  constructor; cbn [set_shell ts_shells ts_readers ts_gate ts_next].
  - intros j x Hj. look; [rewrite E2, E1; now apply (A1 k)|now apply (A1 j)].
  - intros j x r Hj Hr. look; [rewrite E1 in Hr; now apply (A2 k sh)|now apply (A2 j x)].
  - intros j j' x x' r H1 H2 R1 R2. look; auto.
    + rewrite E1 in R2. now apply (A3 j k x sh r).
    + rewrite E1 in R1. now apply (A3 k j' sh x' r).
    + now apply (A3 j j' x x' r).
  - intros r rd Hr Hrun. destruct (A4 r rd Hr Hrun) as (j & x & Hj & Hx).
    destruct (Nat.eq_dec j k) as [->|N].
    + exists k, sh'. rewrite aget_aset_same. split; auto. rewrite E1. congruence.
    + exists j, x. rewrite aget_aset_other by auto. auto.
  - intros r rd j Hr Hrun Hb. destruct (A5 r rd j Hr Hrun Hb) as (x & Hj & Hx).
    assert (Hcb : forall r0 rd0 j0, sh_reader sh = Some r0 -> aget r0 (ts_readers s) = Some rd0 -> tr_bound rd0 = Some j0 ->
                    sh_cb sh <> None -> sh_cb sh' <> None).
    { intros r0 rd0 j0 Q1 Q2 Q3 Q4 Q5. destruct (Ecb Q5) as [C|C]; [auto|now apply (C r0 rd0 j0)]. }
    assert (Hx' : forall b shb, aget b (ts_shells s) = Some shb -> sh_reader shb = Some r -> sh_cb shb <> None ->
                  exists shb', aget b (aset k sh' (ts_shells s)) = Some shb' /\ sh_reader shb' = Some r /\ sh_cb shb' <> None).
    { intros b shb Q1 Q2 Q3. destruct (Nat.eq_dec b k) as [->|N].
      - exists sh'. rewrite aget_aset_same. assert (shb = sh) by congruence. subst. repeat split; try congruence. eauto.
      - exists shb. rewrite aget_aset_other by auto. auto. }
    destruct Hx as [[H1 H2]|(b & shb & Q & H1 & H2 & H3)].
    + destruct (Hx' j x Hj H1 H2) as (y & Y1 & Y2 & Y3). exists y. auto.
    + destruct (Hx' b shb H1 H2 H3) as (y & Y1 & Y2 & Y3).
      destruct (Nat.eq_dec j k) as [->|N].
      * exists sh'. rewrite aget_aset_same. split; auto. right. exists b, y. auto.
      * exists x. rewrite (aget_aset_other j) by auto. split; auto. right. exists b, y. auto.
  - intros j x Hj Hd. look.
    + rewrite E0, E1. rewrite E3 in Hd. now apply (A6 k).
    + now apply (A6 j).
  - exact A7.
  - exact A8.
  - intros r. rewrite A9. split; intros (j & x & Hj & Hx).
    + destruct (Nat.eq_dec j k) as [->|N].
      * exists k, sh'. rewrite aget_aset_same. split; auto. congruence.
      * exists j, x. rewrite aget_aset_other by auto. auto.
    + look; [exists k, sh; split; congruence|exists j, x; auto].
Qed.

(** Binding the reader of an object. *)
Lemma sound_bind : forall q s k sh r rd b bf, sound q s -> aget k (ts_shells s) = Some sh -> sh_reader sh = Some r ->
  aget r (ts_readers s) = Some rd -> tr_running rd = true ->
  (b = None \/ b = tr_bound rd \/ (b = Some k /\ sh_cb sh <> None)) ->
  sound q (set_reader r (TReader (tr_topic rd) true b bf) s).
Proof.
  intros q s k sh r rd b bf H Hk Hr Hrd Hrun Hb. destruct H as [A1 A2 A3 A4 A5 A6 A7 A8 A9].
  constructor; cbn [set_reader ts_shells ts_readers ts_gate ts_next]; auto.
  - intros j x r' Hj Hx. destruct (A2 j x r' Hj Hx) as (y & Y1 & Y2). look; [eexists; split; eauto|eauto].
  - intros r' rd' Hr' Hrun'. look; [eauto|eauto].
  - intros r' rd' j Hr' Hrun' Hb'. look.
    + cbn in Hb'. destruct Hb as [->|[->|[-> Hc]]]; [discriminate|now apply (A5 r rd j)|].
      injection Hb' as <-. exists sh. auto.
    + now apply (A5 r' rd' j).
  - intros r' rd' Hr'. look; eauto.
Qed.
Lemma sound_bind_reader : forall q s k sh b, sound q s -> aget k (ts_shells s) = Some sh ->
  (b = None \/ (b = Some k /\ sh_cb sh <> None)) -> sound q (fst (bind_reader (sh_reader sh) b s)).
Proof.
  intros q s k sh b H Hk Hb. destruct (sh_reader sh) as [r|] eqn:Er; [|exact H].
  destruct (so_owns q s H k sh r Hk Er) as (rd & Hrd & Hrun). rewrite (bind_some r rd b s Hrd Hrun).
  apply (sound_bind q s k sh); intuition.
Qed.
Lemma bind_keeps : forall r b s, ts_shells (fst (bind_reader r b s)) = ts_shells s /\ ts_known (fst (bind_reader r b s)) = ts_known s /\
  ts_next (fst (bind_reader r b s)) = ts_next s.
Proof. intros [r|] b s; cbn; auto. destruct (aget r (ts_readers s)) as [rd|]; auto. destruct (tr_running rd); auto. Qed.
Lemma bind_bound : forall q s k sh b r rd, sound q s -> aget k (ts_shells s) = Some sh -> sh_reader sh = Some r ->
  aget r (ts_readers (fst (bind_reader (sh_reader sh) b s))) = Some rd -> tr_bound rd = b.
Proof.
  intros q s k sh b r rd H Hk Er. destruct (so_owns q s H k sh r Hk Er) as (rd0 & Hrd & Hrun).
  rewrite Er, (bind_some r rd0 b s Hrd Hrun). cbn. rewrite aget_aset_same. intros [= <-]. reflexivity.
Qed.

Lemma sound_rem : forall q s k sh, sound q s -> aget k (ts_shells s) = Some sh ->
  sound q (set_shell k (sh_set_cb None sh) (fst (bind_reader (sh_reader sh) None s))).
Proof.
  intros q s k sh H Hk.
  apply (sound_shell q _ k sh); try reflexivity.
  - apply (sound_bind_reader q s k sh); auto.
  - now rewrite (proj1 (bind_keeps (sh_reader sh) None s)).
  - intros _. right. intros r rd j Hr Hrd. rewrite (bind_bound q s k sh None r rd H Hk Hr Hrd). discriminate.
Qed.

(** Ending a subscription. *)
Lemma sound_halt : forall s q k sh r rd sh', sound q s -> aget k (ts_shells s) = Some sh -> sh_reader sh = Some r ->
  aget r (ts_readers s) = Some rd -> (forall a, q <> PdMove a k) ->
  sh_kind sh' = sh_kind sh -> sh_reader sh' = None -> sh_created sh' = false -> sh_dead sh' = sh_dead sh ->
  sound q (set_shell k sh' (halted r rd s)).
Proof.
  intros s q k sh r rd sh' H Hk Er Hrd Hq E0 E1 E2 E3. destruct H as [A1 A2 A3 A4 A5 A6 A7 A8 A9].
  assert (Hr : forall r' rd', aget r' (ts_readers (set_shell k sh' (halted r rd s))) = Some rd' -> tr_running rd' = true ->
             r' <> r /\ aget r' (ts_readers s) = Some rd').
  { intros r' rd'. cbn. intros Q1 Q2. look; try discriminate. auto. }
  constructor.
  - cbn [set_shell ts_shells]. intros j x Hj. look; [now rewrite E1, E2|now apply (A1 j)].
  - cbn [set_shell ts_shells]. intros j x r' Hj Hx. look; [congruence|].
    assert (r' <> r) by (intros ->; destruct E; apply (A3 j k x sh r); auto).
    destruct (A2 j x r' Hj Hx) as (y & Y1 & Y2). exists y. cbn. rewrite !aget_aset_other by auto. auto.
  - cbn [set_shell ts_shells]. intros j j' x x' r' H1 H2 R1 R2. look; try congruence. now apply (A3 j j' x x' r').
  - intros r' rd' Hr' Hrun. destruct (Hr r' rd' Hr' Hrun) as [N Hr0].
    destruct (A4 r' rd' Hr0 Hrun) as (j & x & Hj & Hx). exists j, x. cbn. rewrite aget_aset_other; auto. congruence.
  - intros r' rd' j Hr' Hrun Hb. destruct (Hr r' rd' Hr' Hrun) as [N Hr0].
    destruct (A5 r' rd' j Hr0 Hrun Hb) as (x & Hj & Hx). cbn [set_shell ts_shells halted].
    destruct Hx as [[H1 H2]|(b & shb & Q & H1 & H2 & H3)].
    + exists x. rewrite aget_aset_other by congruence. auto.
    + assert (b <> k) by (intros ->; now apply (Hq j)).
      destruct (Nat.eq_dec j k) as [->|N'].
      * exists sh'. rewrite aget_aset_same. split; auto. right. exists b, shb. rewrite aget_aset_other by auto. auto.
      * exists x. rewrite aget_aset_other by auto. split; auto. right. exists b, shb. rewrite aget_aset_other by auto. auto.
  - cbn [set_shell ts_shells halted]. intros j x Hj Hd. look.
    + rewrite E3 in Hd. destruct (A6 k sh Hk Hd). auto.
    + now apply (A6 j).
  - cbn. intros r' rd' Hr'. look; eauto.
  - cbn. now apply NoDup_filter.
  - intros r'. cbn [set_shell ts_shells halted ts_gate]. rewrite filter_neq_in, A9. split.
    + intros [(j & x & Hj & Hx) N]. exists j, x. rewrite aget_aset_other; auto. congruence.
    + intros (j & x & Hj & Hx). look; [congruence|]. split; [eauto|]. intros ->. apply E. apply (A3 j k x sh r); auto.
Qed.
Lemma sound_base_destroy : forall s q k sh, sound q s -> aget k (ts_shells s) = Some sh -> (forall a, q <> PdMove a k) ->
  sound q (set_shell k (snd (fst (base_destroy sh s))) (fst (fst (base_destroy sh s)))).
Proof.
  intros s q k sh H Hk Hq. pose proof (so_created q s H k sh Hk) as Hc.
  destruct (sh_reader sh) as [r|] eqn:Er; cbn in Hc.
  - destruct (so_owns q s H k sh r Hk Er) as (rd & Hrd & Hrun).
    rewrite (base_destroy_some sh s r rd Hc Er Hrd Hrun). cbn [fst snd].
    apply (sound_halt s q k sh r rd); auto.
  - rewrite (base_destroy_none sh s Hc). cbn [fst snd]. apply (sound_shell q s k sh); auto.
Qed.
Lemma base_destroy_shape : forall s q k sh, sound q s -> aget k (ts_shells s) = Some sh ->
  snd (fst (base_destroy sh s)) = sh_set_base None false sh /\ ts_shells (fst (fst (base_destroy sh s))) = ts_shells s /\
  ts_known (fst (fst (base_destroy sh s))) = ts_known s /\ ts_next (fst (fst (base_destroy sh s))) = ts_next s.
Proof.
  intros s q k sh H Hk. pose proof (so_created q s H k sh Hk) as Hc.
  destruct (sh_reader sh) as [r|] eqn:Er; cbn in Hc.
  - destruct (so_owns q s H k sh r Hk Er) as (rd & Hrd & Hrun).
    rewrite (base_destroy_some sh s r rd Hc Er Hrd Hrun). cbn. auto.
  - rewrite (base_destroy_none sh s Hc). cbn. destruct sh; cbn in *; subst; auto.
Qed.
Lemma aset_twice : forall {V} (k : nat) (a b : V) m, aset k a (aset k b m) = aset k a m.
Proof.
  intros V k a b m. induction m as [|[k' v] m IH]; cbn; [now rewrite eqb_refl|].
  destruct (eqb k k') eqn:E; cbn; [now rewrite eqb_refl|rewrite E; now rewrite IH].
Qed.
Lemma set_shell_twice : forall k a b s, set_shell k a (set_shell k b s) = set_shell k a s.
Proof. intros. unfold set_shell. cbn. now rewrite aset_twice. Qed.
Lemma base_destroy_set : forall sh s k x, base_destroy sh (set_shell k x s) =
  (set_shell k x (fst (fst (base_destroy sh s))), snd (fst (base_destroy sh s)), snd (base_destroy sh s)).
Proof.
  intros sh s k x. unfold base_destroy. destruct (sh_created sh); cbn [negb]; [|reflexivity].
  destruct (sh_reader sh) as [r|]; [|reflexivity].
  cbn. destruct (aget r (ts_readers s)) as [rd|] eqn:E; cbn; [|rewrite E; reflexivity].
  destruct (tr_running rd); cbn; [rewrite aget_aset_same; reflexivity|rewrite E; reflexivity].
Qed.

Lemma sound_typed_destroy : forall s q k sh, sound q s -> aget k (ts_shells s) = Some sh -> (forall a, q <> PdMove a k) ->
  sound q (set_shell k (snd (fst (typed_destroy sh s))) (fst (fst (typed_destroy sh s)))).
Proof.
  intros s q k sh H Hk Hq. unfold typed_destroy.
  pose proof (typed_rem_eq sh s) as E. destruct (typed_rem sh s) as [[s1 sh1] ret]. cbn in E. injection E as -> ->.
  pose proof (sound_rem q s k sh H Hk) as H1.
  pose proof (sound_base_destroy _ q k (sh_set_cb None sh) H1 (aget_aset_same _ _ _) Hq) as H2.
  rewrite base_destroy_set in H2. cbn [fst snd] in H2. rewrite set_shell_twice in H2. exact H2.
Qed.
Lemma typed_destroy_shape : forall s q k sh, sound q s -> aget k (ts_shells s) = Some sh ->
  snd (fst (typed_destroy sh s)) = sh_set_cb None (sh_set_base None false sh) /\ ts_shells (fst (fst (typed_destroy sh s))) = ts_shells s /\
  ts_known (fst (fst (typed_destroy sh s))) = ts_known s /\ ts_next (fst (fst (typed_destroy sh s))) = ts_next s.
Proof.
  intros s q k sh H Hk. unfold typed_destroy.
  pose proof (typed_rem_eq sh s) as E. destruct (typed_rem sh s) as [[s1 sh1] ret]. cbn in E. injection E as -> ->.
  pose proof (sound_rem q s k sh H Hk) as H1.
  destruct (base_destroy_shape _ q k (sh_set_cb None sh) H1 (aget_aset_same _ _ _)) as (S1 & S2 & S3 & S4).
  rewrite base_destroy_set in S1, S2, S3, S4. cbn [fst snd set_shell ts_shells ts_known ts_next] in *.
  destruct (bind_keeps (sh_reader sh) None s) as (B1 & B2 & B3). rewrite S1, S3, S4.
  repeat split; auto.
  assert (X : ts_shells (fst (fst (base_destroy (sh_set_cb None sh) (fst (bind_reader (sh_reader sh) None s))))) =
              ts_shells (fst (bind_reader (sh_reader sh) None s))).
  { unfold base_destroy. destruct (sh_created (sh_set_cb None sh)); [|reflexivity].
    destruct (sh_reader (sh_set_cb None sh)) as [r|]; cbn [negb fst ts_shells]; apply bind_keeps. }
  congruence.
Qed.

(** Handing a subscription over. *)
Lemma sound_transfer : forall s a b sha na nb, sound PdNone s -> aget a (ts_shells s) = Some sha -> sh_dead sha = false -> a <> b ->
  (forall shb, aget b (ts_shells s) = Some shb -> sh_reader shb = None) ->
  sh_reader nb = sh_reader sha -> sh_created nb = sh_created sha -> sh_cb nb = sh_cb sha -> sh_dead nb = false ->
  sh_reader na = None -> sh_created na = false -> sh_dead na = false ->
  sound (PdMove a b) (set_shell b nb (set_shell a na s)).
Proof.
  intros s a b sha na nb H Ha Hd N Hb N1 N2 N3 N4 O1 O2 O4. destruct H as [A1 A2 A3 A4 A5 A6 A7 A8 A9].
  assert (Hg : forall j x, aget j (ts_shells (set_shell b nb (set_shell a na s))) = Some x ->
            (j = b /\ x = nb) \/ (j = a /\ x = na) \/ (j <> a /\ j <> b /\ aget j (ts_shells s) = Some x)).
  { intros j x. cbn. intros Q. look; auto. }
  assert (Ga : aget a (ts_shells (set_shell b nb (set_shell a na s))) = Some na).
  { cbn. rewrite aget_aset_other by auto. apply aget_aset_same. }
  assert (Gb : aget b (ts_shells (set_shell b nb (set_shell a na s))) = Some nb) by (cbn; apply aget_aset_same).
  assert (Go : forall j, j <> a -> j <> b -> aget j (ts_shells (set_shell b nb (set_shell a na s))) = aget j (ts_shells s)).
  { intros j J1 J2. cbn. now rewrite !aget_aset_other by auto. }
  assert (Town : forall r j x, aget j (ts_shells s) = Some x -> sh_reader x = Some r ->
            exists j' x', aget j' (ts_shells (set_shell b nb (set_shell a na s))) = Some x' /\ sh_reader x' = Some r).
  { intros r j x Hj Hx. destruct (Nat.eq_dec j a) as [->|J1]; [exists b, nb; split; [exact Gb|congruence]|].
    destruct (Nat.eq_dec j b) as [->|J2]; [rewrite (Hb x Hj) in Hx; discriminate|].
    exists j, x. now rewrite Go. }
  assert (Tback : forall r j x, aget j (ts_shells (set_shell b nb (set_shell a na s))) = Some x -> sh_reader x = Some r ->
            exists j' x', aget j' (ts_shells s) = Some x' /\ sh_reader x' = Some r /\ (j = b -> j' = a) /\ (j <> b -> j' = j)).
  { intros r j x Hj Hx. destruct (Hg j x Hj) as [[-> ->]|[[-> ->]|(J1 & J2 & J3)]].
    - exists a, sha. repeat split; auto; congruence.
    - congruence.
    - exists j, x. repeat split; auto; congruence. }
  constructor.
  - intros j x Hj. destruct (Hg j x Hj) as [[-> ->]|[[-> ->]|(_ & _ & J)]].
    + rewrite N1, N2. now apply (A1 a).
    + now rewrite O1, O2.
    + now apply (A1 j).
  - intros j x r Hj Hx. destruct (Tback r j x Hj Hx) as (j' & x' & T1 & T2 & _). now apply (A2 j' x').
  - intros j j' x x' r H1 H2 R1 R2.
    destruct (Tback r j x H1 R1) as (i & y & T1 & T2 & T3 & T4). destruct (Tback r j' x' H2 R2) as (i' & y' & T1' & T2' & T3' & T4').
    assert (i = i') by (apply (A3 i i' y y' r); auto). subst i'.
    assert (Ax : forall j x, aget j (ts_shells (set_shell b nb (set_shell a na s))) = Some x -> sh_reader x = Some r -> j <> a).
    { intros l z L1 L2 ->. rewrite Ga in L1. injection L1 as <-. congruence. }
    pose proof (Ax j x H1 R1). pose proof (Ax j' x' H2 R2).
    destruct (Nat.eq_dec j b) as [->|J]; destruct (Nat.eq_dec j' b) as [->|J']; auto.
    + rewrite (T3 eq_refl) in *. specialize (T4' J'). congruence.
    + rewrite (T3' eq_refl) in *. specialize (T4 J). congruence.
    + rewrite <- (T4 J), <- (T4' J'). reflexivity.
  - intros r rd Hr Hrun. destruct (A4 r rd Hr Hrun) as (j & x & Hj & Hx). now apply (Town r j x).
  - intros r rd j Hr Hrun Hbd. destruct (A5 r rd j Hr Hrun Hbd) as (x & Hj & [[H1 H2]|(c & shc & Q & _)]); [|discriminate].
    destruct (Nat.eq_dec j a) as [->|J1].
    + exists na. split; [exact Ga|]. right. exists b, nb. rewrite Ha in Hj. injection Hj as <-. repeat split; auto; congruence.
    + destruct (Nat.eq_dec j b) as [->|J2]; [rewrite (Hb x Hj) in H1; discriminate|].
      exists x. rewrite Go by auto. auto.
  - intros j x Hj Hdj. destruct (Hg j x Hj) as [[-> ->]|[[-> ->]|(_ & _ & J)]]; try congruence.
    destruct (A6 j x J Hdj). discriminate.
  - exact A7.
  - exact A8.
  - intros r. cbn [set_shell ts_gate]. rewrite A9. split.
    + intros (j & x & Hj & Hx). now apply (Town r j x).
    + intros (j & x & Hj & Hx). destruct (Tback r j x Hj Hx) as (j' & x' & T1 & T2 & _). eauto.
Qed.

(** Binding to the new place ends the hand-over. *)
Lemma sound_rebind : forall s a b sh, sound (PdMove a b) s -> aget b (ts_shells s) = Some sh -> sound PdNone (rebind b sh s).
Proof.
  intros s a b sh H Hb.
  assert (X : forall s', sound (PdMove a b) s' -> aget b (ts_shells s') = Some sh ->
            (forall r rd, sh_reader sh = Some r -> aget r (ts_readers s') = Some rd -> tr_bound rd = Some b \/ sh_cb sh = None) -> sound PdNone s').
  { intros s' H' Hb' Hr. destruct H' as [A1 A2 A3 A4 A5 A6 A7 A8 A9]. constructor; auto.
    - intros r rd k Q1 Q2 Q3. destruct (A5 r rd k Q1 Q2 Q3) as (x & Hk & [[H1 H2]|(c & shc & E & H1 & H2 & H3)]).
      + exists x. auto.
      + injection E as E1 E2. subst c. rewrite Hb' in H1. injection H1 as <-.
        destruct (Hr r rd H2 Q1) as [E|E]; [|congruence].
        assert (Kb : k = b) by congruence. exists sh. rewrite Kb. auto.
    - intros k x Hk Hd. destruct (A6 k x Hk Hd). discriminate. }
  unfold rebind. destruct (sh_cb sh) as [cb|] eqn:Ec.
  - pose proof (sound_bind_reader _ s b sh None H Hb (or_introl eq_refl)) as H1.
    assert (Hb1 : aget b (ts_shells (fst (bind_reader (sh_reader sh) None s))) = Some sh).
    { now rewrite (proj1 (bind_keeps (sh_reader sh) None s)). }
    assert (Hc : sh_cb sh <> None) by congruence.
    pose proof (sound_bind_reader _ _ b sh (Some b) H1 Hb1 (or_intror (conj eq_refl Hc))) as H2.
    apply X; auto.
    + now rewrite (proj1 (bind_keeps (sh_reader sh) (Some b) _)).
    + intros r rd Hr Hrd. left. now apply (bind_bound _ _ b sh (Some b) r rd H1 Hb1 Hr Hrd).
  - apply X; auto.
Qed.
Lemma rebind_keeps : forall b sh s, ts_shells (rebind b sh s) = ts_shells s /\ ts_known (rebind b sh s) = ts_known s /\ ts_next (rebind b sh s) = ts_next s.
Proof.
  intros b sh s. unfold rebind. destruct (sh_cb sh); auto.
  destruct (bind_keeps (sh_reader sh) (Some b) (fst (bind_reader (sh_reader sh) None s))) as (-> & -> & ->). apply bind_keeps.
Qed.

(** Creating a subscription. *)
Lemma sound_create : forall q s k sh t, sound q s -> aget k (ts_shells s) = Some sh -> sh_dead sh = false -> sound q (fst (base_create k sh t s)).
Proof.
  intros q s k sh t H Hk Hdd. unfold base_create. destruct (sh_created sh) eqn:Ec; [exact H|]. destruct t as [|z t]; [exact H|].
  pose proof (so_created q s H k sh Hk) as Hc. rewrite Ec in Hc.
  destruct H as [A1 A2 A3 A4 A5 A6 A7 A8 A9].
  assert (Er : sh_reader sh = None) by (destruct (sh_reader sh); [discriminate|reflexivity]).
  assert (Hn : aget (ts_next s) (ts_readers s) = None).
  { destruct (aget (ts_next s) (ts_readers s)) as [rd|] eqn:E; [|reflexivity]. apply A7 in E. lia. }
  assert (Hlt : forall j x r, aget j (ts_shells s) = Some x -> sh_reader x = Some r -> (r < ts_next s)%nat).
  { intros j x r Hj Hx. destruct (A2 j x r Hj Hx) as (rd & Hrd & _). now apply (A7 r rd). }
  constructor; cbn [fst ts_shells ts_readers ts_gate ts_next].
  - intros j x Hj. look; [reflexivity|now apply (A1 j)].
  - intros j x r Hj Hx. rewrite aget_aset in Hj. destruct (eqb j k) eqn:E.
    + injection Hj as <-. injection Hx as <-. rewrite aget_aset_same. eexists. split; reflexivity.
    + pose proof (Hlt j x r Hj Hx). rewrite aget_aset_other by lia. now apply (A2 j x).
  - intros j j' x x' r H1 H2 R1 R2. look; cbn in *; auto.
    + injection R2 as <-. pose proof (Hlt j x _ H1 R1). lia.
    + injection R1 as <-. pose proof (Hlt j' x' _ H2 R2). lia.
    + now apply (A3 j j' x x' r).
  - intros r rd Hr Hrun. rewrite aget_aset in Hr. destruct (eqb r (ts_next s)) eqn:E; [apply eqb_true in E; subst r|].
    + exists k. rewrite aget_aset_same. eexists. split; reflexivity.
    + destruct (A4 r rd Hr Hrun) as (j & x & Hj & Hx). exists j, x. rewrite aget_aset_other; auto. congruence.
  - intros r rd j Hr Hrun Hb. rewrite aget_aset in Hr. destruct (eqb r (ts_next s)); [injection Hr as <-; discriminate|].
    destruct (A5 r rd j Hr Hrun Hb) as (x & Hj & [[H1 H2]|(c & shc & Q & H1 & H2 & H3)]).
    + exists x. rewrite aget_aset_other by congruence. auto.
    + assert (c <> k) by congruence.
      destruct (Nat.eq_dec j k) as [->|N'].
      * eexists. rewrite aget_aset_same. split; [reflexivity|]. right. exists c, shc. rewrite aget_aset_other by auto. auto.
      * exists x. rewrite aget_aset_other by auto. split; auto. right. exists c, shc. rewrite aget_aset_other by auto. auto.
  - intros j x Hj Hd. look; [cbn in Hd; congruence|]. now apply (A6 j).
  - intros r rd Hr. look; [lia|]. apply A7 in Hr. lia.
  - apply nodup_snoc; auto. intros Hin. apply A9 in Hin. destruct Hin as (j & x & Hj & Hx). pose proof (Hlt j x _ Hj Hx). lia.
  - intros r. rewrite in_app_iff, A9. cbn. split.
    + intros [(j & x & Hj & Hx)|[<-|[]]].
      * exists j, x. rewrite aget_aset_other; auto. congruence.
      * exists k. rewrite aget_aset_same. eexists. split; reflexivity.
    + intros (j & x & Hj & Hx). look; cbn in Hx; [injection Hx as <-; auto|]. left. eauto.
Qed.
Lemma sound_fresh : forall q s k kd t, sound q s -> aget k (ts_shells s) = None -> (forall a b, q <> PdMove a b) -> sound q (set_shell k (sh_new kd t) s).
Proof.
  intros q s k kd t H Hk Hq. destruct H as [A1 A2 A3 A4 A5 A6 A7 A8 A9].
  constructor; cbn [set_shell ts_shells ts_readers ts_gate ts_next]; auto.
  - intros j x Hj. look; [reflexivity|now apply (A1 j)].
  - intros j x r Hj Hx. look; [discriminate|now apply (A2 j x)].
  - intros j j' x x' r H1 H2 R1 R2. look; try discriminate. now apply (A3 j j' x x' r).
  - intros r rd Hr Hrun. destruct (A4 r rd Hr Hrun) as (j & x & Hj & Hx). exists j, x. rewrite aget_aset_other; auto. congruence.
  - intros r rd j Hr Hrun Hb. destruct (A5 r rd j Hr Hrun Hb) as (x & Hj & [C|(c & shc & Q & _)]); [|now destruct (Hq j c)].
    exists x. rewrite aget_aset_other; auto. congruence.
  - intros j x Hj Hd. look; [discriminate|]. now apply (A6 j).
  - intros r. rewrite A9. split; intros (j & x & Hj & Hx).
    + exists j, x. rewrite aget_aset_other; auto. congruence.
    + look; [discriminate|]. eauto.
Qed.

Lemma sound_kill : forall s k sh, sound PdNone s -> aget k (ts_shells s) = Some sh -> (sh_kind sh <> KMsg -> sh_reader sh = None) ->
  sound (PdDie k) (set_shell k (sh_kill sh) s).
Proof.
  intros s k sh H Hk Hr. destruct H as [A1 A2 A3 A4 A5 A6 A7 A8 A9].
  assert (Hd : forall j x, aget j (ts_shells (set_shell k (sh_kill sh) s)) = Some x -> exists x', aget j (ts_shells s) = Some x' /\
            sh_reader x = sh_reader x' /\ sh_created x = sh_created x' /\ sh_cb x = sh_cb x').
  { intros j x. cbn. intros Q. look; [exists sh; auto|exists x; auto]. }
  assert (Hu : forall j x', aget j (ts_shells s) = Some x' -> exists x, aget j (ts_shells (set_shell k (sh_kill sh) s)) = Some x /\
            sh_reader x = sh_reader x' /\ sh_created x = sh_created x' /\ sh_cb x = sh_cb x').
  { intros j x' Q. cbn. destruct (Nat.eq_dec j k) as [->|N].
    - rewrite aget_aset_same. assert (x' = sh) by congruence. subst. eexists. split; [reflexivity|auto].
    - rewrite aget_aset_other by auto. exists x'. auto. }
  constructor; auto.
  - intros j x Hj. destruct (Hd j x Hj) as (x' & J1 & -> & -> & _). now apply (A1 j).
  - intros j x r Hj Hx. destruct (Hd j x Hj) as (x' & J1 & J2 & _). apply (A2 j x'); congruence.
  - intros j j' x x' r H1 H2 R1 R2. destruct (Hd j x H1) as (y & J1 & J2 & _), (Hd j' x' H2) as (y' & J1' & J2' & _).
    apply (A3 j j' y y' r); congruence.
  - intros r rd Q1 Q2. destruct (A4 r rd Q1 Q2) as (j & x & Hj & Hx). destruct (Hu j x Hj) as (y & Y1 & Y2 & _). exists j, y. split; congruence.
  - intros r rd j Q1 Q2 Q3. destruct (A5 r rd j Q1 Q2 Q3) as (x & Hj & [[H1 H2]|(c & shc & Q & _)]); [|discriminate].
    destruct (Hu j x Hj) as (y & Y1 & Y2 & _ & Y3). exists y. split; auto. left. split; congruence.
  - cbn. intros j x Hj Hdd. look; [split; auto|]. destruct (A6 j x Hj Hdd). discriminate.
  - intros r. cbn [set_shell ts_gate]. rewrite A9. split; intros (j & x & Hj & Hx).
    + destruct (Hu j x Hj) as (y & Y1 & Y2 & _). exists j, y. split; congruence.
    + destruct (Hd j x Hj) as (y & Y1 & Y2 & _). exists j, y. split; congruence.
Qed.
Definition forget (k : nat) (s : tstate) : tstate := TState (adel k (ts_shells s)) (ts_readers s) (ts_gate s) (ts_next s) (ts_known s).
Lemma sound_forget : forall s q k sh, sound q s -> (q = PdNone \/ q = PdDie k) -> aget k (ts_shells s) = Some sh -> sh_reader sh = None ->
  sound PdNone (forget k s).
Proof.
  intros s q k sh H Hq Hk Hr. destruct H as [A1 A2 A3 A4 A5 A6 A7 A8 A9].
  assert (Hd : forall j x, aget j (ts_shells (forget k s)) = Some x -> j <> k /\ aget j (ts_shells s) = Some x).
  { intros j x. cbn. rewrite aget_adel. destruct (eqb j k) eqn:E; [discriminate|]. apply eqb_false in E. auto. }
  assert (Hu : forall j x, j <> k -> aget j (ts_shells s) = Some x -> aget j (ts_shells (forget k s)) = Some x).
  { intros j x N Q. cbn. rewrite aget_adel. apply neq_eqb in N. now rewrite N. }
  constructor; auto.
  - intros j x Hj. apply Hd in Hj. now apply (A1 j).
  - intros j x r Hj Hx. apply Hd in Hj. now apply (A2 j x).
  - intros j j' x x' r H1 H2. apply Hd in H1, H2. now apply (A3 j j' x x' r).
  - intros r rd Q1 Q2. destruct (A4 r rd Q1 Q2) as (j & x & Hj & Hx). exists j, x. split; auto. apply Hu; auto. congruence.
  - intros r rd j Q1 Q2 Q3. destruct (A5 r rd j Q1 Q2 Q3) as (x & Hj & [[H1 H2]|(c & shc & Q & _)]); [|destruct Hq; congruence].
    exists x. split; auto. apply Hu; auto. congruence.
  - intros j x Hj Hdd. apply Hd in Hj. destruct Hj as [N Hj]. destruct (A6 j x Hj Hdd) as [-> _]. destruct Hq; congruence.
  - intros r. cbn [forget ts_gate]. rewrite A9. split; intros (j & x & Hj & Hx).
    + exists j, x. split; auto. apply Hu; auto. congruence.
    + apply Hd in Hj. exists j, x. tauto.
Qed.
Lemma gone_eq : forall k sh s, gone k sh s = forget k (fst (fst (base_destroy sh s))).
Proof. intros k sh s. unfold gone. destruct (base_destroy sh s) as [[s1 sh1] b]. reflexivity. Qed.
Lemma adel_aset_same : forall {V} (k : nat) (x : V) m, adel k (aset k x m) = adel k m.
Proof.
  intros V k x m. unfold adel in *. induction m as [|[j v] m IH]; cbn [aset filter fst]; [now rewrite eqb_refl|].
  destruct (eqb k j) eqn:E; cbn [filter fst negb]; rewrite ?eqb_refl, ?E; cbn [negb]; [reflexivity|]. f_equal. exact IH.
Qed.
Lemma forget_set : forall k x s, forget k (set_shell k x s) = forget k s.
Proof. intros k x s. unfold forget, set_shell. cbn [ts_shells ts_readers ts_gate ts_next ts_known]. now rewrite adel_aset_same. Qed.
Lemma sound_gone : forall s q k sh, sound q s -> (q = PdNone \/ q = PdDie k) -> aget k (ts_shells s) = Some sh -> sound PdNone (gone k sh s).
Proof.
  intros s q k sh H Hq Hk. rewrite gone_eq.
  assert (Hm : forall a, q <> PdMove a k) by (intros a ->; destruct Hq; discriminate).
  pose proof (sound_base_destroy s q k sh H Hk Hm) as H1.
  pose proof (base_destroy_shape s q k sh H Hk) as (E & _).
  pose proof (sound_forget _ q k _ H1 Hq (aget_aset_same _ _ _)) as H2.
  rewrite forget_set in H2. apply H2. now rewrite E.
Qed.
Lemma sound_die : forall s k sh, sound PdNone s -> aget k (ts_shells s) = Some sh -> sound (PdDie k) (die k sh s).
Proof.
  intros s k sh H Hk. unfold die.
  assert (X : sound (PdDie k) (let '(s1, sh1, _) := typed_destroy sh s in set_shell k (sh_kill sh1) s1)).
  { pose proof (sound_typed_destroy s PdNone k sh H Hk ltac:(discriminate)) as H1.
    pose proof (typed_destroy_shape s PdNone k sh H Hk) as (E & _).
    destruct (typed_destroy sh s) as [[s1 sh1] b]. cbn in H1, E.
    rewrite <- (set_shell_twice k _ sh1). apply sound_kill; auto.
    - apply aget_aset_same.
    - intros _. now rewrite E. }
  destruct (sh_kind sh) eqn:Ek; auto. apply sound_kill; auto. congruence.
Qed.
Lemma die_get : forall k sh s, exists sh', aget k (ts_shells (die k sh s)) = Some sh'.
Proof.
  intros k sh s. unfold die. destruct (sh_kind sh); try destruct (typed_destroy sh s) as [[s1 sh1] b]; cbn; rewrite aget_aset_same; eauto.
Qed.

Lemma some_inj : forall {X} (a b : X), Some a = Some b -> a = b.
Proof. intros X a b E. now injection E. Qed.
Section Steps.
  Variable dec : option nat -> list Z -> option (list Z).

  Lemma populate_keeps : forall sh s, sh_kind (populate sh s) = sh_kind sh /\ sh_reader (populate sh s) = sh_reader sh /\
    sh_created (populate sh s) = sh_created sh /\ sh_dead (populate sh s) = sh_dead sh /\ sh_cb (populate sh s) = sh_cb sh /\
    sh_err (populate sh s) = sh_err sh /\ sh_topic (populate sh s) = sh_topic sh.
  Proof.
    intros sh s. unfold populate. destruct (sh_info sh); [now repeat split|]. destruct (aget (sh_topic sh) (ts_known s)) as [[|i]|]; now repeat split.
  Qed.
  Lemma sound_populate : forall q s k sh, sound q s -> aget k (ts_shells s) = Some sh -> sound q (set_shell k (populate sh s) s).
  Proof.
    intros q s k sh H Hk. destruct (populate_keeps sh s) as (P1 & P2 & P3 & P4 & P5 & _).
    apply (sound_shell q s k sh); auto. left. congruence.
  Qed.
  Lemma sound_arrive : forall q s r p, sound q s -> sound q (fst (arrive dec r p s)).
  Proof.
    intros q s r p H. unfold arrive. destruct (aget r (ts_readers s)) as [rd|] eqn:Er; [|exact H].
    destruct (tr_running rd) eqn:Erun; [|exact H].
    destruct (tr_bound rd) as [k|] eqn:Eb.
    - destruct (aget k (ts_shells s)) as [sh|] eqn:Ek; [|exact H]. destruct (sh_dead sh) eqn:Ed; [exact H|].
      unfold receive_callback. destruct (sh_cb sh); [|exact H].
      destruct (sh_kind sh); try exact H. cbn [fst]. now apply sound_populate.
    - cbn [fst]. destruct (so_owned q s H r rd Er Erun) as (k & sh & Hk & Hr). apply (sound_bind q s k sh); auto.
  Qed.
  Lemma sound_receive : forall q s k sh, sound q s -> aget k (ts_shells s) = Some sh -> sound q (fst (typed_receive dec k sh s)).
  Proof.
    intros q s k sh H Hk. unfold typed_receive. destruct (sh_created sh) eqn:Ec; [|exact H]. destruct (sh_reader sh) as [r|] eqn:Er; [|exact H].
    destruct (aget r (ts_readers s)) as [rd|] eqn:Erd; [|exact H]. destruct (tr_running rd) eqn:Erun; [|exact H].
    destruct (tr_buf rd) as [p|] eqn:Ebf; [|exact H].
    assert (H1 : sound q (set_reader r (TReader (tr_topic rd) true (tr_bound rd) None) s)) by (apply (sound_bind q s k sh); auto).
    destruct (sh_kind sh); try exact H1. cbn [fst].
    destruct (populate_keeps sh s) as (P1 & P2 & P3 & P4 & P5 & _). apply (sound_shell q _ k sh); auto. left. congruence.
  Qed.
  Lemma live_spec : forall k s sh, live k s = Some sh <-> aget k (ts_shells s) = Some sh /\ sh_dead sh = false.
  Proof.
    intros k s sh. unfold live. destruct (aget k (ts_shells s)) as [x|]; [|split; [discriminate|intros [? _]; discriminate]].
    destruct (sh_dead x) eqn:E; split; try discriminate; [intros [[= ->] ?]; congruence|intros [= ->]; auto|intros [[= ->] _]; auto].
  Qed.
  Lemma is_fresh_spec : forall k s, is_fresh k s = true <-> aget k (ts_shells s) = None.
  Proof. intros k s. unfold is_fresh. destruct (aget k (ts_shells s)); split; congruence. Qed.

  Lemma sound_move_first : forall s a b sh, sound PdNone s -> aget a (ts_shells s) = Some sh -> sh_dead sh = false -> aget b (ts_shells s) = None ->
    sound (PdMove a b) (fst (move_first a b sh s)).
  Proof.
    intros s a b sh H Ha Hd Hb. unfold move_first. cbn [fst]. apply (sound_transfer s a b sh); auto; try congruence.
  Qed.
  Lemma move_first_new : forall a b sh s, aget b (ts_shells (fst (move_first a b sh s))) = Some (snd (move_first a b sh s)).
  Proof. intros. unfold move_first. cbn. apply aget_aset_same. Qed.

  Lemma sound_step : forall o s s' out q q', sound q s -> t_step dec o s = Some (s', out) -> after_op q o = Some q' -> sound q' s'.
  Proof.
    intros o s s' out q q' H Hs Hq.
    destruct o as [k kd t|k t|k cb|k|k e|k|a b|a b|b|a b|k|k|k|k|r p|t i]; cbn [t_step after_op] in Hs, Hq.
    - destruct q; try discriminate. injection Hq as <-. destruct (is_fresh k s) eqn:F; [|discriminate]. apply is_fresh_spec in F.
      apply some_inj in Hs. replace s' with (fst (base_create k (sh_new kd t) t (set_shell k (sh_new kd t) s))) by now rewrite Hs.
      apply sound_create; [|apply aget_aset_same|reflexivity]. apply sound_fresh; auto. discriminate.
    - destruct q; try discriminate. injection Hq as <-. destruct (live k s) as [sh|] eqn:L; [|discriminate]. apply live_spec in L. destruct L as [Hk Hd].
      apply some_inj in Hs. replace s' with (fst (base_create k sh t s)) by now rewrite Hs. now apply sound_create.
    - destruct q; try discriminate. injection Hq as <-. destruct (live k s) as [sh|] eqn:L; [|discriminate]. apply live_spec in L. destruct L as [Hk Hd].
      pose proof (typed_rem_eq sh s) as E. destruct (typed_rem sh s) as [[s1 sh1] ret]. cbn in E. injection E as -> ->.
      set (s1 := fst (bind_reader (sh_reader sh) None s)) in *. set (sh2 := sh_set_cb (Some cb) (sh_set_cb None sh)) in *.
      destruct (bind_reader (sh_reader sh2) (Some k) (set_shell k sh2 s1)) as [s2 ret2] eqn:B. injection Hs as <- <-.
      replace s2 with (fst (bind_reader (sh_reader sh2) (Some k) (set_shell k sh2 s1))) by now rewrite B.
      apply (sound_bind_reader PdNone _ k sh2); [|apply aget_aset_same|right; split; [reflexivity|discriminate]].
      apply (sound_shell PdNone s1 k sh); try reflexivity.
      + apply (sound_bind_reader PdNone s k sh); auto.
      + unfold s1. now rewrite (proj1 (bind_keeps (sh_reader sh) None s)).
      + discriminate.
    - destruct q; try discriminate. injection Hq as <-. destruct (live k s) as [sh|] eqn:L; [|discriminate]. apply live_spec in L. destruct L as [Hk Hd].
      pose proof (typed_rem_eq sh s) as E. destruct (typed_rem sh s) as [[s1 sh1] ret]. cbn in E. injection E as -> ->. injection Hs as <- <-.
      now apply sound_rem.
    - destruct q; try discriminate. injection Hq as <-. destruct (live k s) as [sh|] eqn:L; [|discriminate]. apply live_spec in L. destruct L as [Hk Hd].
      injection Hs as <- <-. apply (sound_shell PdNone s k sh); auto.
    - destruct q; try discriminate. injection Hq as <-. destruct (live k s) as [sh|] eqn:L; [|discriminate]. apply live_spec in L. destruct L as [Hk Hd].
      pose proof (sound_typed_destroy s PdNone k sh H Hk ltac:(discriminate)) as H1.
      destruct (typed_destroy sh s) as [[s1 sh1] ret]. injection Hs as <- <-. exact H1.
    - destruct q; try discriminate. injection Hq as <-. destruct (live a s) as [sh|] eqn:L; [|discriminate]. apply live_spec in L. destruct L as [Hk Hd].
      destruct (is_fresh b s) eqn:F; [|discriminate]. apply is_fresh_spec in F.
      pose proof (sound_move_first s a b sh H Hk Hd F) as H1. pose proof (move_first_new a b sh s) as H2.
      destruct (move_first a b sh s) as [s1 new]. injection Hs as <- <-. cbn [fst snd] in *. now apply (sound_rebind s1 a b new).
    - destruct q; try discriminate. injection Hq as <-. destruct (live a s) as [sh|] eqn:L; [|discriminate]. apply live_spec in L. destruct L as [Hk Hd].
      destruct (is_fresh b s) eqn:F; [|discriminate]. apply is_fresh_spec in F. injection Hs as <- <-. now apply sound_move_first.
    - destruct q as [|a b'|]; try discriminate. destruct (Nat.eqb_spec b' b) as [->|]; [|discriminate]. injection Hq as <-.
      destruct (live b s) as [sh|] eqn:L; [|discriminate]. apply live_spec in L. destruct L as [Hk Hd]. injection Hs as <- <-.
      now apply (sound_rebind s a b sh).
    - destruct q; try discriminate. injection Hq as <-. destruct (live a s) as [sha|] eqn:La; [|discriminate]. destruct (live b s) as [shb|] eqn:Lb; [|discriminate].
      apply live_spec in La, Lb. destruct La as [Ha Hda], Lb as [Hb Hdb].
      assert (Hs' : exists s1 shb1 x, (base_destroy shb s = (s1, shb1, x) \/ typed_destroy shb s = (s1, shb1, x)) /\
        match aget a (ts_shells (set_shell b shb1 s1)) with
        | None => None
        | Some sha1 =>
            if Nat.eqb a b
            then let self := sh_set_base (sh_reader sha1) false sha1 in Some (rebind b self (set_shell b self (set_shell b shb1 s1)), TBool true)
            else Some (rebind b (sh_set_cb (sh_cb sha1) (sh_set_base (sh_reader sha1) (sh_created sha1) shb1))
                        (set_shell b (sh_set_cb (sh_cb sha1) (sh_set_base (sh_reader sha1) (sh_created sha1) shb1))
                           (set_shell a (sh_set_base None false (sh_set_cb None sha1)) (set_shell b shb1 s1))), TBool true)
        end = Some (s', out)).
      { destruct (sh_kind sha), (sh_kind shb); try discriminate; cbn in Hs.
        - destruct (typed_destroy shb s) as [[s1 shb1] x]. exists s1, shb1, x. auto.
        - destruct (base_destroy shb s) as [[s1 shb1] x]. exists s1, shb1, x. auto. }
      clear Hs. destruct Hs' as (s1 & shb1 & x & Hx & Hs).
      assert (Hf : sound PdNone (set_shell b shb1 s1) /\ sh_reader shb1 = None /\ sh_created shb1 = false /\ sh_dead shb1 = false /\ ts_shells s1 = ts_shells s).
      { destruct Hx as [Hx|Hx].
        - pose proof (sound_base_destroy s PdNone b shb H Hb ltac:(discriminate)) as H1.
          pose proof (base_destroy_shape s PdNone b shb H Hb) as (H2 & H3 & _). rewrite Hx in *. cbn [fst snd] in *. subst shb1. auto.
        - pose proof (sound_typed_destroy s PdNone b shb H Hb ltac:(discriminate)) as H1.
          pose proof (typed_destroy_shape s PdNone b shb H Hb) as (H2 & H3 & _). rewrite Hx in *. cbn [fst snd] in *. subst shb1. auto. }
      destruct Hf as (Hf & Hr & Hcr & Hdd & Hsh).
      destruct (Nat.eqb_spec a b) as [->|N].
      + cbn [set_shell ts_shells] in Hs. rewrite aget_aset_same in Hs. cbn zeta in Hs. apply (f_equal (option_map fst)) in Hs. cbn [option_map fst] in Hs. injection Hs as <-.
        assert (E : sh_set_base (sh_reader shb1) false shb1 = shb1) by (destruct shb1; cbn in *; subst; reflexivity).
        rewrite E. unfold rebind. destruct (sh_cb shb1); [rewrite Hr; cbn [bind_reader fst]|]; fold (set_shell b shb1 s1);
        apply (sound_shell PdNone _ b shb1); auto; apply aget_aset_same.
      + cbn [set_shell ts_shells] in Hs. rewrite (aget_aset_other a b) in Hs by auto. rewrite Hsh, Ha in Hs.
        apply (f_equal (option_map fst)) in Hs. cbn [option_map fst] in Hs. injection Hs as <-. fold (set_shell b shb1 s1).
        apply (sound_rebind _ a b).
        * apply (sound_transfer _ a b sha); auto.
          -- cbn. rewrite aget_aset_other by auto. congruence.
          -- cbn. rewrite aget_aset_same. intros y [= <-]. exact Hr.
        * cbn. apply aget_aset_same.
    - destruct q; try discriminate. injection Hq as <-. destruct (live k s) as [sh|] eqn:L; [|discriminate]. apply live_spec in L. destruct L as [Hk Hd].
      pose proof (sound_die s k sh H Hk) as H1. destruct (die_get k sh s) as (sh' & Hg). rewrite Hg in Hs. injection Hs as <- <-.
      now apply (sound_gone _ (PdDie k) k sh'); auto.
    - destruct q; try discriminate. injection Hq as <-. destruct (live k s) as [sh|] eqn:L; [|discriminate]. apply live_spec in L. destruct L as [Hk Hd].
      injection Hs as <- <-. now apply sound_die.
    - destruct q as [| |k']; try discriminate. destruct (Nat.eqb_spec k' k) as [->|]; [|discriminate]. injection Hq as <-.
      destruct (aget k (ts_shells s)) as [sh|] eqn:Ek; [|discriminate]. destruct (sh_dead sh); [|discriminate]. injection Hs as <- <-.
      now apply (sound_gone s (PdDie k) k sh); auto.
    - destruct q; try discriminate. injection Hq as <-. destruct (live k s) as [sh|] eqn:L; [|discriminate]. apply live_spec in L. destruct L as [Hk Hd].
      apply some_inj in Hs. replace s' with (fst (typed_receive dec k sh s)) by now rewrite Hs. now apply sound_receive.
    - injection Hq as <-. apply some_inj in Hs. replace s' with (fst (arrive dec r p s)) by now rewrite Hs. now apply sound_arrive.
    - injection Hq as <-. injection Hs as <- <-. destruct H. now constructor.
  Qed.

  (** ** Runs *)
  Lemma run_app : forall os1 os2 s, t_run dec (os1 ++ os2) s =
    match t_run dec os1 s with
    | None => None
    | Some (s1, outs1) => match t_run dec os2 s1 with None => None | Some (s2, outs2) => Some (s2, outs1 ++ outs2) end
    end.
  Proof.
    induction os1 as [|o os1 IH]; intros os2 s; cbn; [now destruct (t_run dec os2 s) as [[? ?]|]|].
    destruct (t_step dec o s) as [[s1 out]|]; [|reflexivity]. rewrite IH. destruct (t_run dec os1 s1) as [[s2 outs]|]; [|reflexivity].
    now destruct (t_run dec os2 s2) as [[? ?]|].
  Qed.
  Lemma sound_run : forall os s s' outs q q', sound q s -> t_run dec os s = Some (s', outs) -> orderly os q = Some q' -> sound q' s'.
  Proof.
    induction os as [|o os IH]; intros s s' outs q q' H Hr Ho; cbn in Hr, Ho; [congruence|].
    destruct (t_step dec o s) as [[s1 out]|] eqn:Es; [|discriminate]. destruct (t_run dec os s1) as [[s2 outs2]|] eqn:Er; [|discriminate].
    destruct (after_op q o) as [q1|] eqn:Eq; [|discriminate]. injection Hr as <- <-.
    apply (IH s1 s2 outs2 q1 q'); auto. now apply (sound_step o s s1 out q q1).
  Qed.
End Steps.

(** ** No callback on a destroyed object *)
Section Kinds.
  Variable dec : option nat -> list Z -> option (list Z).

  Lemma create_out : forall k sh t s, snd (base_create k sh t s) <> TUb.
  Proof. intros k sh t s. unfold base_create. destruct (sh_created sh); [discriminate|]. destruct t; discriminate. Qed.
  Lemma receive_out : forall k sh s, snd (typed_receive dec k sh s) <> TUb.
  Proof.
    intros k sh s. unfold typed_receive. destruct (sh_created sh); [|discriminate]. destruct (sh_reader sh); [|discriminate].
    destruct (aget n (ts_readers s)) as [rd|]; [|discriminate]. destruct (tr_running rd); [|discriminate]. destruct (tr_buf rd); [|discriminate].
    destruct (sh_kind sh); discriminate.
  Qed.
  Lemma callback_out : forall k sh p s, snd (receive_callback dec k sh p s) <> TUb.
  Proof.
    intros k sh p s. unfold receive_callback. destruct (sh_cb sh); [|discriminate]. destruct (sh_kind sh); cbn [snd].
    - destruct (dec None p); discriminate.
    - destruct (dec None p); discriminate.
    - cbv zeta. destruct (sh_info (populate sh s)) as [i|]; [destruct (dec (Some i) p); [discriminate|]|]; destruct (sh_err sh); discriminate.
  Qed.
  Lemma arrive_ub : forall q s r p, sound q s -> snd (arrive dec r p s) = TUb ->
    exists k sh, aget k (ts_shells s) = Some sh /\ sh_kind sh = KMsg /\ sh_dead sh = true /\ sh_reader sh = Some r.
  Proof.
    intros q s r p H. unfold arrive. destruct (aget r (ts_readers s)) as [rd|] eqn:Er; [|discriminate].
    destruct (tr_running rd) eqn:Erun; [|discriminate]. destruct (tr_bound rd) as [k|] eqn:Eb; [|discriminate].
    destruct (so_bound q s H r rd k Er Erun Eb) as (sh & Hk & Ho). rewrite Hk. destruct (sh_dead sh) eqn:Ed; [|intros C; now apply callback_out in C].
    intros _. destruct (so_dead q s H k sh Hk Ed) as [-> Hm]. destruct Ho as [[H1 H2]|(b & shb & Q & _)]; [|discriminate].
    exists k, sh. repeat split; auto. destruct (sh_kind sh); auto; assert (sh_reader sh = None) by (apply Hm; discriminate); congruence.
  Qed.
  Lemma step_ub : forall o s s' q, sound q s -> t_step dec o s = Some (s', TUb) ->
    exists k sh r p, o = TArrive r p /\ aget k (ts_shells s) = Some sh /\ sh_kind sh = KMsg /\ sh_dead sh = true /\ sh_reader sh = Some r.
  Proof.
    intros o s s' q H Hs.
    destruct o as [k kd t|k t|k cb|k|k e|k|a b|a b|b|a b|k|k|k|k|r p|t i]; cbn [t_step] in Hs.
    - destruct (is_fresh k s); [|discriminate]. apply some_inj in Hs.
      destruct (create_out k (sh_new kd t) t (set_shell k (sh_new kd t) s)). cbv zeta in Hs. now rewrite Hs.
    - destruct (live k s) as [sh|]; [|discriminate]. apply some_inj in Hs. destruct (create_out k sh t s). now rewrite Hs.
    - destruct (live k s) as [sh|]; [|discriminate]. destruct (typed_rem sh s) as [[s1 sh1] ret]. destruct (bind_reader _ _ _). discriminate.
    - destruct (live k s) as [sh|]; [|discriminate]. destruct (typed_rem sh s) as [[s1 sh1] ret]. discriminate.
    - destruct (live k s) as [sh|]; discriminate.
    - destruct (live k s) as [sh|]; [|discriminate]. destruct (typed_destroy sh s) as [[s1 sh1] ret]. discriminate.
    - destruct (live a s) as [sh|]; [|discriminate]. destruct (is_fresh b s); [|discriminate]. destruct (move_first a b sh s). discriminate.
    - destruct (live a s) as [sh|]; [|discriminate]. destruct (is_fresh b s); discriminate.
    - destruct (live b s) as [sh|]; discriminate.
    - destruct (live a s) as [sha|]; [|discriminate]. destruct (live b s) as [shb|]; [|discriminate].
      destruct (sh_kind sha), (sh_kind shb); try discriminate; cbn in Hs.
      + destruct (typed_destroy shb s) as [[s1 shb1] x]. destruct (aget a (aset b shb1 (ts_shells s1))) as [y|]; [|discriminate].
        destruct (Nat.eqb a b); discriminate.
      + destruct (base_destroy shb s) as [[s1 shb1] x]. destruct (aget a (aset b shb1 (ts_shells s1))) as [y|]; [|discriminate].
        destruct (Nat.eqb a b); discriminate.
    - destruct (live k s) as [sh|]; [|discriminate]. destruct (aget k (ts_shells (die k sh s))); discriminate.
    - destruct (live k s) as [sh|]; discriminate.
    - destruct (aget k (ts_shells s)) as [sh|]; [|discriminate]. destruct (sh_dead sh); discriminate.
    - destruct (live k s) as [sh|]; [|discriminate]. apply some_inj in Hs. destruct (receive_out k sh s). now rewrite Hs.
    - apply some_inj in Hs. assert (E : snd (arrive dec r p s) = TUb) by now rewrite Hs.
      destruct (arrive_ub q s r p H E) as (k & sh & ? & ? & ? & ?). exists k, sh, r, p. auto.
    - discriminate.
  Qed.

  (** Kinds do not change. *)
  Definition modern (s : tstate) : Prop := forall k sh, aget k (ts_shells s) = Some sh -> sh_kind sh <> KMsg.
  Lemma modern_set : forall k x s, modern s -> sh_kind x <> KMsg -> modern (set_shell k x s).
  Proof. intros k x s H Hx j y Hj. cbn in Hj. rewrite aget_aset in Hj. destruct (eqb j k); [now injection Hj as <-|now apply (H j)]. Qed.
  Lemma modern_same : forall s s', modern s -> ts_shells s' = ts_shells s -> modern s'.
  Proof. intros s s' H E k x. rewrite E. apply H. Qed.
  Lemma modern_forget : forall k s, modern s -> modern (forget k s).
  Proof. intros k s H j x Hj. cbn in Hj. rewrite aget_adel in Hj. destruct (eqb j k); [discriminate|now apply (H j)]. Qed.
  Lemma modern_create : forall k sh t s, modern s -> sh_kind sh <> KMsg -> modern (fst (base_create k sh t s)).
  Proof.
    intros k sh t s H Hk. unfold base_create. destruct (sh_created sh); [exact H|]. destruct t; [exact H|].
    apply (modern_same (set_shell k (sh_set_base (Some (ts_next s)) true sh) s)); [|reflexivity]. now apply modern_set.
  Qed.
  Lemma base_destroy_any : forall sh s, ts_shells (fst (fst (base_destroy sh s))) = ts_shells s /\ sh_kind (snd (fst (base_destroy sh s))) = sh_kind sh.
  Proof.
    intros sh s. unfold base_destroy. destruct (sh_created sh); cbn [negb]; [|auto].
    destruct (bind_keeps (sh_reader sh) None s) as (E & _). destruct (sh_reader sh); cbn [fst snd ts_shells]; auto.
  Qed.
  Lemma typed_destroy_any : forall sh s, ts_shells (fst (fst (typed_destroy sh s))) = ts_shells s /\ sh_kind (snd (fst (typed_destroy sh s))) = sh_kind sh.
  Proof.
    intros sh s. unfold typed_destroy. pose proof (typed_rem_eq sh s) as E. destruct (typed_rem sh s) as [[s1 sh1] ret]. cbn in E. injection E as -> ->.
    destruct (base_destroy_any (sh_set_cb None sh) (fst (bind_reader (sh_reader sh) None s))) as [-> ->].
    split; [apply bind_keeps|reflexivity].
  Qed.
  Lemma modern_die : forall k sh s, modern s -> sh_kind sh <> KMsg -> modern (die k sh s).
  Proof.
    intros k sh s H Hk. unfold die. destruct (typed_destroy_any sh s) as [E1 E2]. destruct (typed_destroy sh s) as [[s1 sh1] x]. cbn in E1, E2.
    destruct (sh_kind sh) eqn:Ek; try congruence; apply modern_set; try (now apply (modern_same s)); cbn; congruence.
  Qed.
  Lemma modern_gone : forall k sh s, modern s -> modern (gone k sh s).
  Proof.
    intros k sh s H. rewrite gone_eq. apply modern_forget. apply (modern_same s); auto. apply base_destroy_any.
  Qed.
  Lemma modern_step : forall o s s' out, modern s -> deprecated o = false -> t_step dec o s = Some (s', out) -> modern s'.
  Proof.
    intros o s s' out H Hd Hs.
    destruct o as [k kd t|k t|k cb|k|k e|k|a b|a b|b|a b|k|k|k|k|r p|t i]; cbn [t_step] in Hs.
    - destruct (is_fresh k s); [|discriminate]. apply some_inj in Hs. cbv zeta in Hs.
      assert (Hk : kd <> KMsg) by (destruct kd; cbn in Hd; congruence).
      replace s' with (fst (base_create k (sh_new kd t) t (set_shell k (sh_new kd t) s))) by now rewrite Hs.
      apply modern_create; auto. now apply modern_set.
    - destruct (live k s) as [sh|] eqn:L; [|discriminate]. apply live_spec in L. destruct L as [L _]. apply some_inj in Hs.
      replace s' with (fst (base_create k sh t s)) by now rewrite Hs. apply modern_create; auto. now apply (H k).
    - destruct (live k s) as [sh|] eqn:L; [|discriminate]. apply live_spec in L. destruct L as [L _]. apply H in L.
      pose proof (typed_rem_eq sh s) as E. destruct (typed_rem sh s) as [[s1 sh1] ret]. cbn in E. injection E as -> ->.
      destruct (bind_reader _ _ _) as [s2 ret2] eqn:B. injection Hs as <- <-.
      eapply modern_same; [|replace s2 with (fst (s2, ret2)) by reflexivity; rewrite <- B; apply bind_keeps].
      apply modern_set; auto. apply (modern_same s); auto. apply bind_keeps.
    - destruct (live k s) as [sh|] eqn:L; [|discriminate]. apply live_spec in L. destruct L as [L _]. apply H in L.
      pose proof (typed_rem_eq sh s) as E. destruct (typed_rem sh s) as [[s1 sh1] ret]. cbn in E. injection E as -> ->. injection Hs as <- <-.
      apply modern_set; auto. apply (modern_same s); auto. apply bind_keeps.
    - destruct (live k s) as [sh|] eqn:L; [|discriminate]. apply live_spec in L. destruct L as [L _]. apply H in L. injection Hs as <- <-. now apply modern_set.
    - destruct (live k s) as [sh|] eqn:L; [|discriminate]. apply live_spec in L. destruct L as [L _]. apply H in L.
      destruct (typed_destroy_any sh s) as [E1 E2]. destruct (typed_destroy sh s) as [[s1 sh1] ret]. cbn in E1, E2. injection Hs as <- <-.
      apply modern_set; [now apply (modern_same s)|congruence].
    - destruct (live a s) as [sh|] eqn:L; [|discriminate]. apply live_spec in L. destruct L as [L _]. apply H in L.
      destruct (is_fresh b s); [|discriminate]. cbn in Hs. injection Hs as <- <-. eapply modern_same; [|apply rebind_keeps].
      apply modern_set; auto. now apply modern_set.
    - destruct (live a s) as [sh|] eqn:L; [|discriminate]. apply live_spec in L. destruct L as [L _]. apply H in L.
      destruct (is_fresh b s); [|discriminate]. cbn in Hs. injection Hs as <- <-. apply modern_set; auto. now apply modern_set.
    - destruct (live b s) as [sh|] eqn:L; [|discriminate]. injection Hs as <- <-. eapply modern_same; [exact H|apply rebind_keeps].
    - destruct (live a s) as [sha|] eqn:La; [|discriminate]. destruct (live b s) as [shb|] eqn:Lb; [|discriminate].
      apply live_spec in La, Lb. destruct La as [La _], Lb as [Lb _]. apply H in La, Lb.
      destruct (sh_kind sha) eqn:Ka, (sh_kind shb) eqn:Kb; try discriminate; try congruence; cbn in Hs.
      destruct (typed_destroy_any shb s) as [E1 E2]. destruct (typed_destroy shb s) as [[s1 shb1] x]. cbn [fst snd] in E1, E2.
      assert (H2 : modern (set_shell b shb1 s1)) by (apply modern_set; [now apply (modern_same s)|congruence]).
      destruct (aget a (aset b shb1 (ts_shells s1))) as [y|] eqn:Ey; [|discriminate]. pose proof (H2 a y Ey) as Hy.
      destruct (Nat.eqb a b); apply some_inj in Hs; apply (f_equal fst) in Hs; cbn [fst] in Hs; subst s'; (eapply modern_same; [|apply rebind_keeps]).
      + apply modern_set; auto.
      + apply modern_set; [apply modern_set; auto|cbn; congruence].
    - destruct (live k s) as [sh|] eqn:L; [|discriminate]. apply live_spec in L. destruct L as [L _]. apply H in L.
      pose proof (modern_die k sh s H L) as H1. destruct (aget k (ts_shells (die k sh s))); [|discriminate]. injection Hs as <- <-. now apply modern_gone.
    - destruct (live k s) as [sh|] eqn:L; [|discriminate]. apply live_spec in L. destruct L as [L _]. apply H in L. injection Hs as <- <-. now apply modern_die.
    - destruct (aget k (ts_shells s)) as [sh|]; [|discriminate]. destruct (sh_dead sh); [|discriminate]. injection Hs as <- <-. now apply modern_gone.
    - destruct (live k s) as [sh|] eqn:L; [|discriminate]. apply live_spec in L. destruct L as [L _]. apply H in L. apply some_inj in Hs.
      unfold typed_receive in Hs. destruct (sh_created sh); [|now injection Hs as <- <-]. destruct (sh_reader sh) as [r|]; [|now injection Hs as <- <-].
      destruct (aget r (ts_readers s)) as [rd|]; [|now injection Hs as <- <-]. destruct (tr_running rd); [|now injection Hs as <- <-].
      destruct (tr_buf rd) as [p|]; [|now injection Hs as <- <-].
      destruct (populate_keeps sh s) as (P & _).
      destruct (sh_kind sh) eqn:Ek; injection Hs as <- <-; try (now apply (modern_same s)).
      apply modern_set; [now apply (modern_same s)|congruence].
    - apply some_inj in Hs. unfold arrive in Hs. destruct (aget r (ts_readers s)) as [rd|]; [|now injection Hs as <- <-].
      destruct (tr_running rd); [|now injection Hs as <- <-]. destruct (tr_bound rd) as [k|]; [|injection Hs as <- <-; now apply (modern_same s)].
      destruct (aget k (ts_shells s)) as [sh|] eqn:Ek; [|now injection Hs as <- <-]. apply H in Ek. destruct (sh_dead sh); [now injection Hs as <- <-|].
      unfold receive_callback in Hs. destruct (sh_cb sh); [|now injection Hs as <- <-].
      destruct (populate_keeps sh s) as (P & _).
      destruct (sh_kind sh) eqn:Ekd; injection Hs as <- <-; auto. apply modern_set; auto. congruence.
    - injection Hs as <- <-. now apply (modern_same s).
  Qed.

  Lemma no_ub_lemma : forall os s s' outs q q', sound q s -> modern s -> existsb deprecated os = false -> orderly os q = Some q' ->
    t_run dec os s = Some (s', outs) -> ~ In TUb outs.
  Proof.
    induction os as [|o os IH]; intros s s' outs q q' H Hm Hd Ho Hr; cbn in Hd, Ho, Hr.
    - injection Hr as <- <-. auto.
    - apply Bool.orb_false_iff in Hd. destruct Hd as [Hd1 Hd2].
      destruct (t_step dec o s) as [[s1 out]|] eqn:Es; [|discriminate]. destruct (t_run dec os s1) as [[s2 outs2]|] eqn:Er; [|discriminate].
      destruct (after_op q o) as [q1|] eqn:Eq; [|discriminate]. injection Hr as <- <-.
      intros [->|Hin].
      + destruct (step_ub o s s1 q H Es) as (k & sh & r & p & -> & Hk & Hkd & _). now apply (Hm k sh).
      + revert Hin. apply (IH s1 s2 outs2 q1 q'); auto.
        * now apply (sound_step dec o s s1 out q q1).
        * now apply (modern_step o s s1 out).
  Qed.
  Lemma modern_init : modern ts_init.
  Proof. intros k sh H. discriminate. Qed.
End Kinds.

(** ** What the program expects *)
Definition held_by (sh : shell) : holding := Holding (sh_kind sh) (sh_reader sh) (sh_cb sh).
Record agrees (s : tstate) (w : world) : Prop := {
  ag_sound : sound PdNone s;
  ag_obj : forall k, aget k (wo_objects w) = option_map held_by (aget k (ts_shells s));
  ag_cb : forall k sh cb, aget k (ts_shells s) = Some sh -> sh_cb sh = Some cb ->
          exists r rd, sh_reader sh = Some r /\ aget r (ts_readers s) = Some rd /\ tr_bound rd = Some k;
  ag_buf : forall r rd, aget r (ts_readers s) = Some rd -> tr_running rd = true -> tr_buf rd = aget r (wo_waiting w);
  ag_next : wo_next w = ts_next s;
  ag_wait : forall r p, aget r (wo_waiting w) = Some p -> (r < ts_next s)%nat;
  ag_keys : NoDup (keys (wo_objects w)) }.

#[local] Hint Resolve nodup_aset nodup_adel NoDup_nil : core.
Lemma agrees_init : agrees ts_init wo_init.
Proof. constructor; cbn; try discriminate; auto; [apply sound_init|constructor]. Qed.

Lemma subscribe_some : forall k kd z t w, subscribe k kd (z :: t) w =
  World (aset k (Holding kd (Some (wo_next w)) None) (wo_objects w)) (wo_waiting w) (S (wo_next w)).
Proof. easy. Qed.

Lemma aset_mid : forall {V} (a b : nat) (x y z : V) m, a <> b -> aget b m <> None -> aset b x (aset a y (aset b z m)) = aset b x (aset a y m).
Proof.
  intros V a b x y z m N. induction m as [|[j v] m IH]; cbn [aget aset]; [congruence|]. intros H.
  destruct (eqb b j) eqn:Eb.
  - apply eqb_true in Eb. subst j. cbn [aset]. assert (Ea : eqb a b = false) by now apply neq_eqb. rewrite Ea. cbn [aset]. now rewrite eqb_refl.
  - cbn [aset]. destruct (eqb a j) eqn:Ea.
    + apply eqb_true in Ea. subst j. cbn [aset]. rewrite Eb. now rewrite aset_twice.
    + cbn [aset]. rewrite Eb. now rewrite IH.
Qed.
Lemma shell_mid : forall a b x y z z' s, a <> b -> aget b (ts_shells s) <> None ->
  set_shell b x (set_shell a y (set_shell b z s)) = set_shell b x (set_shell a y (set_shell b z' s)).
Proof. intros a b x y z z' s N H. unfold set_shell. cbn. now rewrite !aset_mid. Qed.
Lemma world_mid : forall a b x y z w, a <> b -> aget b (wo_objects w) <> None -> wo_set b x (wo_set a y (wo_set b z w)) = wo_set b x (wo_set a y w).
Proof. intros a b x y z w N H. unfold wo_set. cbn. now rewrite aset_mid. Qed.
Lemma bind_has : forall x b r rd s, aget r (ts_readers s) = Some rd -> exists rd', aget r (ts_readers (fst (bind_reader x b s))) = Some rd'.
Proof.
  intros [r0|] b r rd s H; cbn; [|eauto]. destruct (aget r0 (ts_readers s)) as [y|]; [|cbn; eauto]. destruct (tr_running y); cbn; [|eauto].
  rewrite aget_aset. destruct (eqb r r0); eauto.
Qed.
Section Simulation.
  Variable dec : option nat -> list Z -> option (list Z).

  (** A change of objects and readers that keeps what waits. *)
  Lemma agrees_create : forall s w k sh t, agrees s w -> aget k (ts_shells s) = Some sh -> sh_dead sh = false ->
    sh_created sh = false -> sh_cb sh = None -> agrees (fst (base_create k sh t s)) (subscribe k (sh_kind sh) t w).
  Proof.
    intros s w k sh t [H1 H2 H3 H4 H5 H6 H7] Hk Hd Hc Hcb.
    pose proof (so_created _ _ H1 k sh Hk) as Hr. rewrite Hc in Hr.
    assert (Er : sh_reader sh = None) by (destruct (sh_reader sh); [discriminate|reflexivity]). clear Hr.
    pose proof (sound_create PdNone s k sh t H1 Hk Hd) as H1'.
    assert (Hn : forall r rd, aget r (ts_readers s) = Some rd -> r <> ts_next s).
    { intros r rd Q ->. apply (so_next _ _ H1) in Q. lia. }
    revert H1'. unfold base_create. rewrite Hc. destruct t as [|z t]; cbn [fst]; intros H1'.
    - constructor; try (now apply nodup_aset); auto. intros j. cbn. rewrite aget_aset. destruct (eqb j k) eqn:E; [|apply H2].
      apply eqb_true in E. subst j. rewrite Hk. cbn. unfold held_by. now rewrite Er, Hcb.
    - rewrite subscribe_some. constructor; cbn [ts_shells ts_readers ts_next wo_objects wo_waiting wo_next]; auto.
      + intros j. rewrite !aget_aset. destruct (eqb j k) eqn:E; [|apply H2]. cbn. unfold held_by. cbn. now rewrite Hcb, H5.
      + intros j x cb Hj Hx. rewrite aget_aset in Hj. destruct (eqb j k) eqn:E; [injection Hj as <-; cbn in Hx; congruence|].
        destruct (H3 j x cb Hj Hx) as (r & rd & Q1 & Q2 & Q3). exists r, rd. rewrite aget_aset_other; eauto.
      + intros r rd Hr Hrun. rewrite aget_aset in Hr. destruct (eqb r (ts_next s)) eqn:E; [|now apply H4].
        apply eqb_true in E. subst r. injection Hr as <-. cbn. destruct (aget (ts_next s) (wo_waiting w)) eqn:Ew; [|reflexivity].
        apply H6 in Ew. lia.
      + intros r p Hp. apply H6 in Hp. lia.
  Qed.

  Lemma reader_of : forall s k sh r, sound PdNone s -> aget k (ts_shells s) = Some sh -> sh_reader sh = Some r ->
    exists rd, aget r (ts_readers s) = Some rd /\ tr_running rd = true /\ sh_created sh = true.
  Proof.
    intros s k sh r H Hk Hr. destruct (so_owns _ _ H k sh r Hk Hr) as (rd & Q1 & Q2). exists rd. repeat split; auto.
    rewrite (so_created _ _ H k sh Hk), Hr. reflexivity.
  Qed.
  Lemma no_reader : forall s w k sh, agrees s w -> aget k (ts_shells s) = Some sh -> sh_reader sh = None -> sh_cb sh = None /\ sh_created sh = false.
  Proof.
    intros s w k sh H Hk Hr. split.
    - destruct (sh_cb sh) as [cb|] eqn:E; [|reflexivity]. destruct (ag_cb _ _ H k sh cb Hk E) as (r & rd & Q & _). congruence.
    - rewrite (so_created _ _ (ag_sound _ _ H) k sh Hk), Hr. reflexivity.
  Qed.

  (** One lemma for everything that changes one object and one reader: the object k gets the shape sh', the reader of
      the object the shape rd' or is stopped. *)
  Lemma agrees_change : forall s w k sh sh' s', agrees s w -> aget k (ts_shells s) = Some sh -> sound PdNone s' ->
    ts_shells s' = aset k sh' (ts_shells s) -> ts_next s' = ts_next s -> sh_kind sh' = sh_kind sh ->
    (forall r, sh_reader sh <> Some r -> aget r (ts_readers s') = aget r (ts_readers s)) ->
    (forall r rd rd', sh_reader sh = Some r -> aget r (ts_readers s) = Some rd -> aget r (ts_readers s') = Some rd' -> tr_buf rd' = tr_buf rd) ->
    (forall cb, sh_cb sh' = Some cb -> exists r rd, sh_reader sh' = Some r /\ aget r (ts_readers s') = Some rd /\ tr_bound rd = Some k) ->
    agrees s' (wo_set k (held_by sh') w).
  Proof.
    intros s w k sh sh' s' [H1 H2 H3 H4 H5 H6 H7] Hk Hs' Esh En Ek Eo Eb Ecb. constructor; cbn [wo_set wo_objects wo_waiting wo_next]; auto.
    - intros j. rewrite Esh, !aget_aset. destruct (eqb j k); [reflexivity|apply H2].
    - intros j x cb Hj Hx. rewrite Esh, aget_aset in Hj. destruct (eqb j k) eqn:E; [apply eqb_true in E; subst j; injection Hj as <-; eauto|].
      apply eqb_false in E.
      destruct (H3 j x cb Hj Hx) as (r & rd & Q1 & Q2 & Q3). exists r, rd. rewrite Eo; auto.
      intros Q. apply E. apply (so_one _ _ H1 j k x sh r); auto.
    - intros r rd Hr Hrun. destruct (so_owned _ _ Hs' r rd Hr Hrun) as (j & x & Hj & Hx).
      destruct (sh_reader sh) as [r0|] eqn:Er.
      + destruct (Nat.eq_dec r r0) as [->|N].
        * destruct (so_owns _ _ H1 k sh r0 Hk Er) as (rd0 & Q1 & Q2). rewrite (Eb r0 rd0 rd eq_refl Q1 Hr). now apply H4.
        * apply H4; auto. rewrite <- Eo; auto. congruence.
      + apply H4; auto. rewrite <- Eo; auto. discriminate.
    - congruence.
    - now rewrite En.
  Qed.

  Lemma agrees_rem : forall s w k sh, agrees s w -> aget k (ts_shells s) = Some sh ->
    agrees (set_shell k (sh_set_cb None sh) (fst (bind_reader (sh_reader sh) None s))) (wo_set k (Holding (sh_kind sh) (sh_reader sh) None) w).
  Proof.
    intros s w k sh H Hk. destruct (bind_keeps (sh_reader sh) None s) as (B1 & B2 & B3).
    apply (agrees_change s w k sh (sh_set_cb None sh)); auto.
    - apply sound_rem; auto. apply (ag_sound _ _ H).
    - cbn. now rewrite B1.
    - cbn [set_shell ts_readers]. destruct (sh_reader sh) as [r0|] eqn:Er; [|reflexivity]. intros r Hn.
      destruct (reader_of s k sh r0 (ag_sound _ _ H) Hk Er) as (rd & Q1 & Q2 & _).
      rewrite (bind_some r0 rd None s Q1 Q2). cbn. apply aget_aset_other. congruence.
    - intros r rd rd' Er Q1. cbn [set_shell ts_readers]. rewrite Er.
      destruct (reader_of s k sh r (ag_sound _ _ H) Hk Er) as (rd0 & Q2 & Q3 & _). rewrite (bind_some r rd0 None s Q2 Q3). cbn. rewrite aget_aset_same.
      intros [= <-]. cbn. congruence.
    - discriminate.
  Qed.
  Lemma agrees_shut : forall s w k sh r rd sh', agrees s w -> aget k (ts_shells s) = Some sh -> sh_reader sh = Some r ->
    aget r (ts_readers s) = Some rd -> sh_kind sh' = sh_kind sh -> sh_reader sh' = None -> sh_created sh' = false -> sh_dead sh' = sh_dead sh -> sh_cb sh' = None ->
    agrees (set_shell k sh' (halted r rd s)) (wo_set k (Holding (sh_kind sh) None None) w).
  Proof.
    intros s w k sh r rd sh' H Hk Er Hrd E0 E1 E2 E3 E4.
    replace (Holding (sh_kind sh) None None) with (held_by sh') by (unfold held_by; now rewrite E0, E1, E4).
    apply (agrees_change s w k sh sh'); auto.
    - apply (sound_halt s PdNone k sh); auto; [apply (ag_sound _ _ H)|discriminate].
    - intros r' Hn. cbn. rewrite !aget_aset_other by congruence. reflexivity.
    - intros r' rd0 rd' Er' Q1. assert (r' = r) by congruence. subst r'. cbn. rewrite aget_aset_same. intros [= <-]. cbn. congruence.
    - congruence.
  Qed.

  Lemma typed_destroy_some : forall s k sh r rd, sound PdNone s -> aget k (ts_shells s) = Some sh -> sh_reader sh = Some r -> aget r (ts_readers s) = Some rd ->
    fst (typed_destroy sh s) = (halted r rd s, sh_set_base None false (sh_set_cb None sh)).
  Proof.
    intros s k sh r rd H Hk Er Hrd. unfold typed_destroy.
    pose proof (typed_rem_eq sh s) as E. destruct (typed_rem sh s) as [[s1 sh1] ret]. cbn in E. injection E as -> ->.
    destruct (reader_of s k sh r H Hk Er) as (rd0 & Q1 & Q2 & Q3). assert (rd0 = rd) by congruence. subst rd0.
    rewrite Er, (bind_some r rd None s Hrd Q2). cbn [fst].
    rewrite (base_destroy_some (sh_set_cb None sh) _ r (TReader (tr_topic rd) true None (tr_buf rd))); auto.
    - unfold halted, set_reader. cbn. rewrite !aset_twice. reflexivity.
    - cbn. apply aget_aset_same.
  Qed.
  Lemma typed_destroy_none : forall s sh, sh_reader sh = None -> sh_created sh = false -> fst (typed_destroy sh s) = (s, sh_set_cb None sh).
  Proof.
    intros s sh Er Ec. unfold typed_destroy. pose proof (typed_rem_eq sh s) as E. destruct (typed_rem sh s) as [[s1 sh1] ret]. cbn in E.
    rewrite Er in E. cbn in E. injection E as -> ->. now rewrite base_destroy_none.
  Qed.
  Lemma set_same : forall {V} (k : nat) (x : V) m, aget k m = Some x -> aset k x m = m.
  Proof.
    intros V k x m. induction m as [|[j v] m IH]; cbn; [discriminate|]. destruct (eqb k j) eqn:E.
    - intros [= ->]. apply eqb_true in E. now subst.
    - intros H. now rewrite IH.
  Qed.
  Lemma shell_same : forall k sh s, aget k (ts_shells s) = Some sh -> set_shell k sh s = s.
  Proof. intros k sh [a b c d e] H. unfold set_shell. cbn in *. now rewrite set_same. Qed.
  Lemma world_same : forall k h w, aget k (wo_objects w) = Some h -> wo_set k h w = w.
  Proof. intros k h [a b c] H. unfold wo_set. cbn in *. now rewrite set_same. Qed.

  Lemma agrees_destroy : forall s w k sh, agrees s w -> aget k (ts_shells s) = Some sh ->
    agrees (set_shell k (snd (fst (typed_destroy sh s))) (fst (fst (typed_destroy sh s)))) (wo_set k (Holding (sh_kind sh) None None) w) /\
    snd (fst (typed_destroy sh s)) = sh_set_base None false (sh_set_cb None sh).
  Proof.
    intros s w k sh H Hk. destruct (sh_reader sh) as [r|] eqn:Er.
    - destruct (reader_of s k sh r (ag_sound _ _ H) Hk Er) as (rd & Q1 & Q2 & Q3).
      rewrite (typed_destroy_some s k sh r rd (ag_sound _ _ H) Hk Er Q1). cbn [fst snd]. split; [|reflexivity]. apply (agrees_shut s w k sh r rd); auto.
    - destruct (no_reader s w k sh H Hk Er) as [Ecb Ec]. rewrite (typed_destroy_none s sh Er Ec). cbn [fst snd].
      assert (E : sh_set_cb None sh = sh) by (destruct sh; cbn in *; subst; reflexivity). rewrite E. split.
      + rewrite (shell_same k sh s Hk), world_same; auto. rewrite (ag_obj _ _ H k), Hk. cbn. unfold held_by. now rewrite Er, Ecb.
      + destruct sh; cbn in *; subst; reflexivity.
  Qed.
  Lemma agrees_base : forall s w k sh, agrees s w -> aget k (ts_shells s) = Some sh ->
    agrees (set_shell k (sh_set_cb None (snd (fst (base_destroy sh s)))) (fst (fst (base_destroy sh s)))) (wo_set k (Holding (sh_kind sh) None None) w) /\
    snd (fst (base_destroy sh s)) = sh_set_base None false sh.
  Proof.
    intros s w k sh H Hk. destruct (sh_reader sh) as [r|] eqn:Er.
    - destruct (reader_of s k sh r (ag_sound _ _ H) Hk Er) as (rd & Q1 & Q2 & Q3).
      rewrite (base_destroy_some sh s r rd Q3 Er Q1 Q2). cbn [fst snd]. split; [|reflexivity]. apply (agrees_shut s w k sh r rd); auto.
    - destruct (no_reader s w k sh H Hk Er) as [Ecb Ec]. rewrite (base_destroy_none sh s Ec). cbn [fst snd].
      assert (E : sh_set_cb None sh = sh) by (destruct sh; cbn in *; subst; reflexivity). rewrite E. split.
      + rewrite (shell_same k sh s Hk), world_same; auto. rewrite (ag_obj _ _ H k), Hk. cbn. unfold held_by. now rewrite Er, Ecb.
      + destruct sh; cbn in *; subst; reflexivity.
  Qed.
  Lemma agrees_forget : forall s w k sh, agrees s w -> aget k (ts_shells s) = Some sh -> sh_reader sh = None ->
    agrees (forget k s) (World (adel k (wo_objects w)) (wo_waiting w) (wo_next w)).
  Proof.
    intros s w k sh H Hk Er. pose proof (sound_forget s PdNone k sh (ag_sound _ _ H) (or_introl eq_refl) Hk Er) as Hs.
    destruct H as [H1 H2 H3 H4 H5 H6 H7]. constructor; cbn [forget ts_shells ts_readers ts_next wo_objects wo_waiting wo_next]; auto.
    - intros j. rewrite !aget_adel. destruct (eqb j k); [reflexivity|apply H2].
    - intros j x cb Hj. rewrite aget_adel in Hj. destruct (eqb j k); [discriminate|]. now apply (H3 j x cb).
  Qed.

  (** Handing over and binding. *)
  Lemma agrees_move : forall s w a b sha na nb, agrees s w -> aget a (ts_shells s) = Some sha -> sh_dead sha = false -> a <> b ->
    (forall shb, aget b (ts_shells s) = Some shb -> sh_reader shb = None) ->
    sh_kind na = sh_kind sha -> sh_reader na = None -> sh_created na = false -> sh_cb na = None -> sh_dead na = false ->
    sh_kind nb = sh_kind sha -> sh_reader nb = sh_reader sha -> sh_created nb = sh_created sha -> sh_cb nb = sh_cb sha -> sh_dead nb = false ->
    agrees (rebind b nb (set_shell b nb (set_shell a na s)))
           (wo_set b (held_by sha) (wo_set a (nothing_of (held_by sha)) w)).
  Proof.
    intros s w a b sha na nb H Ha Hd N Hb O0 O1 O2 O3 O4 N0 N1 N2 N3 N4.
    pose proof (sound_transfer s a b sha na nb (ag_sound _ _ H) Ha Hd N Hb N1 N2 N3 N4 O1 O2 O4) as Ht.
    pose proof (sound_rebind _ a b nb Ht (aget_aset_same _ _ _)) as Hs.
    destruct (rebind_keeps b nb (set_shell b nb (set_shell a na s))) as (R1 & R2 & R3).
    set (s2 := set_shell b nb (set_shell a na s)) in *.
    (* the readers afterwards *)
    assert (Hrd : forall r rd', aget r (ts_readers (rebind b nb s2)) = Some rd' -> exists rd, aget r (ts_readers s) = Some rd /\
              tr_running rd' = tr_running rd /\ tr_buf rd' = tr_buf rd /\
              (sh_reader sha <> Some r -> rd' = rd) /\ (sh_reader sha = Some r -> sh_cb sha <> None -> tr_bound rd' = Some b)).
    { intros r rd'. unfold rebind. rewrite N3, N1. destruct (sh_cb sha) as [cb|] eqn:Ecb.
      - destruct (sh_reader sha) as [r0|] eqn:Er.
        + destruct (reader_of s a sha r0 (ag_sound _ _ H) Ha Er) as (rd & Q1 & Q2 & Q3).
          rewrite (bind_some r0 rd None s2 Q1 Q2). cbn [fst].
          rewrite (bind_some r0 (TReader (tr_topic rd) true None (tr_buf rd)) (Some b)); [|cbn; apply aget_aset_same|reflexivity].
          cbn [fst set_reader ts_readers]. rewrite aset_twice, aget_aset. destruct (eqb r r0) eqn:E.
          * apply eqb_true in E. subst r0. intros [= <-]. exists rd. cbn. repeat split; auto; congruence.
          * apply eqb_false in E. intros Q. exists rd'. repeat split; auto; congruence.
        + cbn [bind_reader fst]. intros Q. exists rd'. repeat split; auto; congruence.
      - intros Q. exists rd'. repeat split; auto; congruence. }
    assert (Hrd2 : forall r rd, aget r (ts_readers s) = Some rd -> exists rd', aget r (ts_readers (rebind b nb s2)) = Some rd').
    { intros r rd Q. unfold rebind. destruct (sh_cb nb); [|exists rd; exact Q].
      destruct (bind_has (sh_reader nb) None r rd s2 Q) as (rd1 & Q1). now apply (bind_has (sh_reader nb) (Some b) r rd1 _ Q1). }
    destruct H as [H1 H2 H3 H4 H5 H6 H7]. constructor; cbn [wo_set wo_objects wo_waiting wo_next]; auto.
    - intros j. rewrite R1. unfold s2. cbn [set_shell ts_shells]. rewrite !aget_aset.
      destruct (eqb j b); [cbn; unfold held_by; now rewrite N0, N1, N3|].
      destruct (eqb j a); [cbn; unfold held_by, nothing_of; cbn; now rewrite O0, O1, O3|apply H2].
    - intros j x cb Hj Hx. rewrite R1 in Hj. unfold s2 in Hj. cbn [set_shell ts_shells] in Hj. rewrite !aget_aset in Hj.
      destruct (eqb j b) eqn:Ejb.
      + apply eqb_true in Ejb. subst j. injection Hj as <-. rewrite N3 in Hx.
        destruct (H3 a sha cb Ha Hx) as (r & rd & Q1 & Q2 & _). destruct (Hrd2 r rd Q2) as (rd' & Q4).
        exists r, rd'. repeat split; auto; [congruence|]. destruct (Hrd r rd' Q4) as (rd0 & _ & _ & _ & _ & Q5). apply Q5; congruence.
      + destruct (eqb j a) eqn:Eja; [injection Hj as <-; congruence|]. apply eqb_false in Eja.
        destruct (H3 j x cb Hj Hx) as (r & rd & Q1 & Q2 & Q3). destruct (Hrd2 r rd Q2) as (rd' & Q4).
        exists r, rd'. repeat split; auto. destruct (Hrd r rd' Q4) as (rd0 & Q6 & _ & _ & Q5 & _).
        rewrite Q5; [congruence|]. intros Q. apply Eja. apply (so_one _ _ H1 j a x sha r); auto.
    - intros r rd' Q Hrun. destruct (Hrd r rd' Q) as (rd & Q1 & Q2 & Q3 & _). rewrite Q3. apply H4; congruence.
    - rewrite R3. exact H5.
    - rewrite R3. exact H6.
  Qed.


  Lemma held_spec : forall s w r, agrees s w -> (held r w = true <-> exists k sh, aget k (ts_shells s) = Some sh /\ sh_reader sh = Some r).
  Proof.
    intros s w r [H1 H2 H3 H4 H5 H6 H7]. unfold held. rewrite existsb_exists. split.
    - intros ([k h] & Hin & Hh). cbn in Hh. destruct (ho_sub h) as [r'|] eqn:Eh; [|discriminate]. apply Nat.eqb_eq in Hh. subst r'.
      apply in_aget in Hin; auto. rewrite H2 in Hin. destruct (aget k (ts_shells s)) as [sh|] eqn:Ek; [|discriminate].
      exists k, sh. split; auto. injection Hin as <-. exact Eh.
    - intros (k & sh & Hk & Hr). exists (k, held_by sh). split; [|cbn; rewrite Hr; apply Nat.eqb_refl].
      apply aget_in. now rewrite H2, Hk.
  Qed.
  Lemma has_callback_spec : forall s w r, agrees s w ->
    (has_callback r w = true <-> exists k sh cb, aget k (ts_shells s) = Some sh /\ sh_reader sh = Some r /\ sh_cb sh = Some cb).
  Proof.
    intros s w r [H1 H2 H3 H4 H5 H6 H7]. unfold has_callback. rewrite existsb_exists. split.
    - intros ([k h] & Hin & Hh). cbn in Hh. destruct (ho_sub h) as [r'|] eqn:Eh; [|discriminate]. destruct (ho_cb h) as [cb|] eqn:Ec; [|discriminate].
      apply Nat.eqb_eq in Hh. subst r'.
      apply in_aget in Hin; auto. rewrite H2 in Hin. destruct (aget k (ts_shells s)) as [sh|] eqn:Ek; [|discriminate].
      exists k, sh, cb. injection Hin as <-. auto.
    - intros (k & sh & cb & Hk & Hr & Hc). exists (k, held_by sh). split; [|cbn; rewrite Hr, Hc; apply Nat.eqb_refl].
      apply aget_in. now rewrite H2, Hk.
  Qed.

  (** What arrives. *)
  Lemma agrees_arrive : forall s w r p, agrees s w ->
    agrees (fst (arrive dec r p s)) (wo_step w (TArrive r p)) /\ served dec w r p (snd (arrive dec r p s)).
  Proof.
    intros s w r p H. pose proof (sound_arrive dec PdNone s r p (ag_sound _ _ H)) as Hs.
    pose proof (held_spec s w r H) as Hheld. pose proof (has_callback_spec s w r H) as Hcall.
    assert (Hobj : forall k h, aget k (wo_objects w) = Some h -> ho_sub h = Some r -> exists sh, aget k (ts_shells s) = Some sh /\ h = held_by sh /\ sh_reader sh = Some r).
    { intros k h Hk Hr. rewrite (ag_obj _ _ H k) in Hk. destruct (aget k (ts_shells s)) as [sh|]; [|discriminate]. injection Hk as <-. exists sh. auto. }
    unfold served. cbn [wo_step]. revert Hs. unfold arrive.
    assert (Hnone : (forall k sh, aget k (ts_shells s) = Some sh -> sh_reader sh <> Some r) ->
              agrees s (if held r w && negb (has_callback r w) then World (wo_objects w) (aset r p (wo_waiting w)) (wo_next w) else w) /\ served dec w r p TIgnored).
    { intros Hno. assert (E : held r w = false) by (destruct (held r w); auto; destruct (proj1 Hheld eq_refl) as (k & sh & Q1 & Q2); now apply Hno in Q1).
      rewrite E. split; [exact H|]. repeat split; auto; intros k h; intros; exfalso; destruct (Hobj k h) as (sh & Q1 & _ & Q3); auto; now apply (Hno k sh). }
    destruct (aget r (ts_readers s)) as [rd|] eqn:Er.
    2:{ intros _. apply Hnone. intros k sh Hk Hr. destruct (so_owns _ _ (ag_sound _ _ H) k sh r Hk Hr) as (rd & Q & _). congruence. }
    destruct (tr_running rd) eqn:Erun.
    2:{ intros _. apply Hnone. intros k sh Hk Hr. destruct (so_owns _ _ (ag_sound _ _ H) k sh r Hk Hr) as (rd' & Q & Q'). congruence. }
    clear Hnone.
    destruct (so_owned _ _ (ag_sound _ _ H) r rd Er Erun) as (k & sh & Hk & Hr).
    assert (E1 : held r w = true) by (apply Hheld; eauto). rewrite E1. cbn [andb].
    assert (Huniq : forall j h, aget j (wo_objects w) = Some h -> ho_sub h = Some r -> h = held_by sh).
    { intros j h Hj Hh. destruct (Hobj j h Hj Hh) as (x & Q1 & -> & Q3).
      assert (j = k) by (apply (so_one _ _ (ag_sound _ _ H) j k x sh r); auto). subst j. congruence. }
    assert (Hsome : aget k (wo_objects w) = Some (held_by sh)) by now rewrite (ag_obj _ _ H k), Hk.
    destruct (sh_cb sh) as [cb|] eqn:Ecb.
    - destruct (ag_cb _ _ H k sh cb Hk Ecb) as (r' & rd' & Q1 & Q2 & Q3). assert (r' = r) by congruence. subst r'.
      assert (rd' = rd) by congruence. subst rd'. rewrite Q3, Hk.
      assert (E2 : has_callback r w = true) by (apply Hcall; exists k, sh, cb; auto). rewrite E2. cbn [negb].
      destruct (sh_dead sh) eqn:Ed; [destruct (so_dead _ _ (ag_sound _ _ H) k sh Hk Ed); discriminate|].
      unfold receive_callback. rewrite Ecb. destruct (sh_kind sh) eqn:Ekd; cbn [fst snd]; intros Hs.
      + split; [exact H|]. repeat split.
        * intros j h c Hj Hh Hc Hn. rewrite (Huniq j h Hj Hh) in Hc. cbn in Hc. assert (c = cb) by congruence. now subst c.
        * intros j h c Hj Hh Hc Hn. rewrite (Huniq j h Hj Hh) in Hn. cbn in Hn. congruence.
        * intros j h Hj Hh Hc. rewrite (Huniq j h Hj Hh) in Hc. cbn in Hc. congruence.
        * intros Hno. now apply Hno in Hsome.
      + split; [exact H|]. repeat split.
        * intros j h c Hj Hh Hc Hn. rewrite (Huniq j h Hj Hh) in Hc. cbn in Hc. assert (c = cb) by congruence. now subst c.
        * intros j h c Hj Hh Hc Hn. rewrite (Huniq j h Hj Hh) in Hn. cbn in Hn. congruence.
        * intros j h Hj Hh Hc. rewrite (Huniq j h Hj Hh) in Hc. cbn in Hc. congruence.
        * intros Hno. now apply Hno in Hsome.
      + split.
        * destruct (populate_keeps sh s) as (P1 & P2 & P3 & P4 & P5 & _).
          rewrite <- (world_same k (held_by (populate sh s)) w) by (rewrite Hsome; unfold held_by; now rewrite P1, P2, P5).
          apply (agrees_change s w k sh (populate sh s)); auto.
          -- intros r0 rd0 rd1 _ A B. cbn in B. congruence.
          -- intros c Hc. rewrite P5 in Hc. destruct (ag_cb _ _ H k sh c Hk Hc) as (x & y & X1 & X2 & X3). exists x, y. rewrite P2. auto.
        * repeat split.
          -- intros j h c Hj Hh Hc Hn. rewrite (Huniq j h Hj Hh) in Hn. cbn in Hn. congruence.
          -- intros j h c Hj Hh Hc Hn. rewrite (Huniq j h Hj Hh) in Hc. cbn in Hc. assert (c = cb) by congruence. subst c.
             destruct (sh_info (populate sh s)) as [i|]; [destruct (dec (Some i) p) as [v|]; [left; eauto|]|]; destruct (sh_err sh); eauto.
          -- intros j h Hj Hh Hc. rewrite (Huniq j h Hj Hh) in Hc. cbn in Hc. congruence.
          -- intros Hno. now apply Hno in Hsome.
    - assert (Eb : tr_bound rd = None).
      { destruct (tr_bound rd) as [j|] eqn:Eb; [|reflexivity].
        destruct (so_bound _ _ (ag_sound _ _ H) r rd j Er Erun Eb) as (x & Hj & [[X1 X2]|(? & ? & X & _)]); [|discriminate].
        assert (j = k) by (apply (so_one _ _ (ag_sound _ _ H) j k x sh r); auto). subst j. congruence. }
      rewrite Eb. cbn [fst snd]. intros Hs.
      assert (E2 : has_callback r w = false).
      { destruct (has_callback r w); auto. destruct (proj1 Hcall eq_refl) as (j & x & c & X1 & X2 & X3).
        assert (j = k) by (apply (so_one _ _ (ag_sound _ _ H) j k x sh r); auto). subst j. congruence. }
      rewrite E2. cbn [negb]. split.
      + destruct H as [H1 H2 H3 H4 H5 H6 H7]. constructor; cbn [wo_objects wo_waiting wo_next set_reader ts_shells ts_readers ts_next]; auto.
        * intros j x c Hj Hx. destruct (H3 j x c Hj Hx) as (r' & rd' & Q1 & Q2 & Q3). exists r', rd'. rewrite aget_aset_other; auto.
          intros ->. congruence.
        * intros r' rd' Hr' Hrun. rewrite aget_aset in Hr'. rewrite aget_aset. destruct (eqb r' r); [injection Hr' as <-; reflexivity|now apply H4].
        * intros r' p' Hp. rewrite aget_aset in Hp. destruct (eqb r' r) eqn:E; [|now apply (H6 r' p')]. apply eqb_true in E. subst r'.
          now apply (so_next _ _ H1 r rd).
      + repeat split; auto.
        * intros j h c Hj Hh Hc Hn. rewrite (Huniq j h Hj Hh) in Hc. cbn in Hc. congruence.
        * intros j h c Hj Hh Hc Hn. rewrite (Huniq j h Hj Hh) in Hc. cbn in Hc. congruence.
        * intros Hno. now apply Hno in Hsome.
  Qed.
  Lemma agrees_receive : forall s w k sh, agrees s w -> aget k (ts_shells s) = Some sh ->
    agrees (fst (typed_receive dec k sh s)) (wo_step w (TReceive k)) /\ received dec w k (snd (typed_receive dec k sh s)).
  Proof.
    intros s w k sh H Hk. pose proof (sound_receive dec PdNone s k sh (ag_sound _ _ H) Hk) as Hs.
    assert (Hsome : aget k (wo_objects w) = Some (held_by sh)) by now rewrite (ag_obj _ _ H k), Hk.
    unfold received. cbn [wo_step]. rewrite Hsome. cbn [held_by].
    destruct (sh_reader sh) as [r|] eqn:Er.
    - destruct (reader_of s k sh r (ag_sound _ _ H) Hk Er) as (rd & Q1 & Q2 & Q3).
      revert Hs. unfold typed_receive. rewrite Q3, Er, Q1, Q2. pose proof (ag_buf _ _ H r rd Q1 Q2) as Eb. rewrite Eb.
      destruct (aget r (wo_waiting w)) as [p|] eqn:Ew.
      + assert (Hag : forall s', sound PdNone s' -> (forall j, option_map held_by (aget j (ts_shells s')) = option_map held_by (aget j (ts_shells s))) ->
                  ts_next s' = ts_next s -> ts_readers s' = aset r (TReader (tr_topic rd) true (tr_bound rd) None) (ts_readers s) ->
                  agrees s' (World (wo_objects w) (adel r (wo_waiting w)) (wo_next w))).
        { intros s' Hs' Eo En Erd. destruct H as [H1 H2 H3 H4 H5 H6 H7]. constructor; cbn [wo_objects wo_waiting wo_next]; auto; rewrite ?En, ?Erd; auto.
          - intros j. now rewrite Eo.
          - intros j x c Hj Hx. pose proof (Eo j) as Ej. rewrite Hj in Ej. cbn in Ej. destruct (aget j (ts_shells s)) as [y|] eqn:Ey; [|discriminate].
            injection Ej as _ E2 E3. rewrite E3 in Hx. destruct (H3 j y c Ey Hx) as (r' & rd' & X1 & X2 & X3).
            destruct (Nat.eq_dec r' r) as [->|Nr].
            + exists r. eexists. rewrite aget_aset_same. split; [congruence|]. split; [reflexivity|]. cbn. congruence.
            + exists r', rd'. rewrite aget_aset_other by auto. repeat split; auto. congruence.
          - intros r' rd' Hr' Hrun. rewrite aget_aset in Hr'. rewrite aget_adel. destruct (eqb r' r); [injection Hr' as <-; reflexivity|now apply H4].
          - intros r' p' Hp. rewrite aget_adel in Hp. destruct (eqb r' r); [discriminate|now apply (H6 r' p')]. }
        destruct (sh_kind sh) eqn:Ekd; cbn [fst snd]; intros Hs.
        * split; [apply Hag; auto|]. intros h Hh Hn. injection Hh as <-. cbn [ho_sub held_by]. rewrite ?Er, Ew. reflexivity.
        * split; [apply Hag; auto|]. intros h Hh Hn. injection Hh as <-. cbn [ho_sub held_by]. rewrite ?Er, Ew. reflexivity.
        * split.
          -- apply Hag; auto. intros j. cbn [set_shell ts_shells]. rewrite aget_aset. destruct (eqb j k) eqn:E; [|reflexivity].
             apply eqb_true in E. subst j. change (ts_shells (set_reader r (TReader (tr_topic rd) true (tr_bound rd) None) s)) with (ts_shells s). rewrite Hk. cbn [option_map]. unfold held_by.
             destruct (populate_keeps sh s) as (-> & -> & _ & _ & -> & _). reflexivity.
          -- intros h Hh Hn. injection Hh as <-. cbn in Hn. congruence.
      + cbn [fst snd]. intros Hs. split.
        * destruct H as [H1 H2 H3 H4 H5 H6 H7]. constructor; cbn [wo_objects wo_waiting wo_next]; auto.
          -- intros r' rd' Hr' Hrun. rewrite aget_adel. destruct (eqb r' r) eqn:E; [|now apply H4]. apply eqb_true in E. subst r'. rewrite <- Ew. now apply H4.
          -- intros r' p' Hp. rewrite aget_adel in Hp. destruct (eqb r' r); [discriminate|now apply (H6 r' p')].
        * intros h Hh Hn. injection Hh as <-. cbn [ho_sub held_by]. rewrite ?Er, Ew. reflexivity.
    - destruct (no_reader s w k sh H Hk Er) as [Ecb Ec]. unfold typed_receive. rewrite Ec. split; [exact H|].
      intros h Hh Hn. injection Hh as <-. cbn. now rewrite Er.
  Qed.

  Lemma agrees_step : forall o s s' w out, agrees s w -> sedate_op w o = true -> t_step dec o s = Some (s', out) ->
    agrees s' (wo_step w o) /\
    match o with TArrive r p => served dec w r p out | TReceive k => received dec w k out | _ => True end.
  Proof.
    intros o s s' w out H Hd Hs.
    assert (Hobj : forall k, aget k (wo_objects w) = option_map held_by (aget k (ts_shells s))) by apply (ag_obj _ _ H).
    destruct o as [k kd t|k t|k cb|k|k e|k|a b|a b|b|a b|k|k|k|k|r p|t i]; cbn [t_step sedate_op] in Hs, Hd; try discriminate;
      try (split; [|exact Logic.I]).
    - destruct (is_fresh k s) eqn:F; [|discriminate]. apply is_fresh_spec in F. apply some_inj in Hs. cbv zeta in Hs.
      replace s' with (fst (base_create k (sh_new kd t) t (set_shell k (sh_new kd t) s))) by now rewrite Hs.
      cbn [wo_step].
      assert (H1 : agrees (set_shell k (sh_new kd t) s) (wo_set k (Holding kd None None) w)).
      { destruct H as [H1 H2 H3 H4 H5 H6 H7]. constructor; cbn [wo_set wo_objects wo_waiting wo_next set_shell ts_shells ts_readers ts_next]; auto.
        - apply sound_fresh; auto. discriminate.
        - intros j. rewrite !aget_aset. destruct (eqb j k); [reflexivity|apply H2].
        - intros j x cb Hj Hx. rewrite aget_aset in Hj. destruct (eqb j k); [injection Hj as <-; discriminate|now apply (H3 j x cb)]. }
      pose proof (agrees_create _ _ k (sh_new kd t) t H1 (aget_aset_same _ _ _) eq_refl eq_refl eq_refl) as H2.
      replace (subscribe k kd t w) with (subscribe k (sh_kind (sh_new kd t)) t (wo_set k (Holding kd None None) w)); auto.
      cbn [sh_kind sh_new]. destruct t; cbn; unfold wo_set; cbn; now rewrite aset_twice.
    - destruct (live k s) as [sh|] eqn:L; [|discriminate]. apply live_spec in L. destruct L as [Hk Hdd]. apply some_inj in Hs.
      replace s' with (fst (base_create k sh t s)) by now rewrite Hs. cbn [wo_step]. rewrite Hobj, Hk. cbn [option_map held_by].
      destruct (sh_reader sh) as [r|] eqn:Er.
      + destruct (reader_of s k sh r (ag_sound _ _ H) Hk Er) as (rd & Q1 & Q2 & Q3). unfold base_create. rewrite Q3. exact H.
      + destruct (no_reader s w k sh H Hk Er) as [Ecb Ec]. now apply agrees_create.
    - destruct (live k s) as [sh|] eqn:L; [|discriminate]. apply live_spec in L. destruct L as [Hk Hdd].
      cbn [wo_step]. rewrite Hobj, Hk in *. cbn [option_map held_by] in *. destruct (sh_reader sh) as [r|] eqn:Er; [|discriminate].
      assert (Hs' : exists q', after_op PdNone (TAdd k cb) = Some q') by (eexists; reflexivity).
      assert (Hso : sound PdNone s').
      { apply (sound_step dec (TAdd k cb) s s' out PdNone PdNone (ag_sound _ _ H)); [|reflexivity]. cbn [t_step].
        replace (live k s) with (Some sh); auto. symmetry. apply live_spec. auto. }
      pose proof (typed_rem_eq sh s) as E. destruct (typed_rem sh s) as [[s1 sh1] ret]. cbn in E. injection E as -> ->.
      destruct (reader_of s k sh r (ag_sound _ _ H) Hk Er) as (rd & Q1 & Q2 & Q3).
      rewrite Er, (bind_some r rd None s Q1 Q2) in Hs. cbn [fst] in Hs.
      set (sh2 := sh_set_cb (Some cb) (sh_set_cb None sh)) in *.
      assert (E2 : sh_reader sh2 = Some r) by (cbn; exact Er). rewrite E2 in Hs.
      rewrite (bind_some r (TReader (tr_topic rd) true None (tr_buf rd)) (Some k)) in Hs; [|cbn; apply aget_aset_same|reflexivity].
      apply some_inj in Hs. apply (f_equal fst) in Hs. cbn [fst] in Hs. subst s'.
      replace (Holding (sh_kind sh) (Some r) (Some cb)) with (held_by sh2) by (unfold held_by, sh2; cbn; now rewrite Er).
      apply (agrees_change s w k sh sh2); auto.
      + intros r' Hn. cbn. rewrite aset_twice. apply aget_aset_other. congruence.
      + intros r' rd0 rd1 Er' A B. assert (r' = r) by congruence. subst r'. cbn in B. rewrite aget_aset_same in B. injection B as <-. cbn. congruence.
      + intros c Hc. exists r. eexists. split; [exact E2|]. cbn. rewrite aget_aset_same. split; reflexivity.
    - destruct (live k s) as [sh|] eqn:L; [|discriminate]. apply live_spec in L. destruct L as [Hk Hdd].
      pose proof (typed_rem_eq sh s) as E. destruct (typed_rem sh s) as [[s1 sh1] ret]. cbn in E. injection E as -> ->. injection Hs as <- <-.
      cbn [wo_step]. rewrite Hobj, Hk. cbn [option_map held_by]. now apply agrees_rem.
    - destruct (live k s) as [sh|] eqn:L; [|discriminate]. apply live_spec in L. destruct L as [Hk Hdd]. injection Hs as <- <-. cbn [wo_step].
      rewrite <- (world_same k (held_by (sh_set_err e sh)) w) by now rewrite Hobj, Hk.
      apply (agrees_change s w k sh (sh_set_err e sh)); auto.
      + apply (sound_shell PdNone s k sh); auto. apply (ag_sound _ _ H).
      + intros r rd rd' _ A B. cbn in B. congruence.
      + intros cb Hc. now apply (ag_cb _ _ H k sh cb).
    - destruct (live k s) as [sh|] eqn:L; [|discriminate]. apply live_spec in L. destruct L as [Hk Hdd].
      destruct (agrees_destroy s w k sh H Hk) as [H1 _]. destruct (typed_destroy sh s) as [[s1 sh1] ret]. injection Hs as <- <-.
      cbn [wo_step]. rewrite Hobj, Hk. exact H1.
    - destruct (live a s) as [sh|] eqn:L; [|discriminate]. apply live_spec in L. destruct L as [Hk Hdd].
      destruct (is_fresh b s) eqn:F; [|discriminate]. apply is_fresh_spec in F. cbn [move_first] in Hs. apply some_inj in Hs. apply (f_equal fst) in Hs. cbn [fst] in Hs. subst s'.
      cbn [wo_step]. rewrite Hobj, Hk. cbn [option_map]. apply agrees_move; auto; congruence.
    - destruct (live a s) as [sha|] eqn:La; [|discriminate]. destruct (live b s) as [shb|] eqn:Lb; [|discriminate].
      apply live_spec in La, Lb. destruct La as [Ha Hda], Lb as [Hb Hdb].
      apply Bool.negb_true_iff in Hd. pose proof Hd as Hdx. apply Nat.eqb_neq in Hd.
      assert (Hs' : sh_kind sha = sh_kind shb /\ exists s1 shb1, (fst (base_destroy shb s) = (s1, shb1) \/ fst (typed_destroy shb s) = (s1, shb1)) /\
        match aget a (aset b shb1 (ts_shells s1)) with
        | None => None
        | Some sha1 => Some (rebind b (sh_set_cb (sh_cb sha1) (sh_set_base (sh_reader sha1) (sh_created sha1) shb1))
                        (set_shell b (sh_set_cb (sh_cb sha1) (sh_set_base (sh_reader sha1) (sh_created sha1) shb1))
                           (set_shell a (sh_set_base None false (sh_set_cb None sha1)) (set_shell b shb1 s1))))
        end = Some s').
      { destruct (sh_kind sha), (sh_kind shb); try discriminate; (split; [reflexivity|]); cbn -[rebind set_shell base_destroy typed_destroy] in Hs.
        - destruct (typed_destroy shb s) as [[s1 shb1] x]. exists s1, shb1. split; [auto|]. cbn [set_shell ts_shells] in Hs.
          rewrite Hdx in Hs. destruct (aget a (aset b shb1 (ts_shells s1))); [|discriminate]. apply some_inj in Hs. apply (f_equal fst) in Hs. cbn [fst] in Hs. now rewrite <- Hs.
        - destruct (base_destroy shb s) as [[s1 shb1] x]. exists s1, shb1. split; [auto|]. cbn [set_shell ts_shells] in Hs.
          rewrite Hdx in Hs. destruct (aget a (aset b shb1 (ts_shells s1))); [|discriminate]. apply some_inj in Hs. apply (f_equal fst) in Hs. cbn [fst] in Hs. now rewrite <- Hs. }
      clear Hs. destruct Hs' as (Ekd & s1 & shb1 & Hx & Hs).
      assert (Hf : agrees (set_shell b (sh_set_cb None shb1) s1) (wo_set b (Holding (sh_kind shb) None None) w) /\
                   sh_reader shb1 = None /\ sh_created shb1 = false /\ sh_dead shb1 = false /\ sh_kind shb1 = sh_kind shb /\ ts_shells s1 = ts_shells s).
      { destruct Hx as [Hx|Hx].
        - destruct (agrees_base s w b shb H Hb) as [H1 H2]. destruct (base_destroy_any shb s) as [H3 _]. rewrite Hx in *. cbn [fst snd] in *. subst shb1. auto 10.
        - destruct (agrees_destroy s w b shb H Hb) as [H1 H2]. destruct (typed_destroy_any shb s) as [H3 _]. rewrite Hx in *. cbn [fst snd] in *. subst shb1. auto 10. }
      destruct Hf as (Hf & Hr & Hcr & Hdd & Hkd & Hsh).
      rewrite aget_aset_other, Hsh, Ha in Hs by auto. apply some_inj in Hs. subst s'.
      cbn [wo_step]. rewrite Hobj, Ha. cbn [option_map].
      pose proof (agrees_move (set_shell b (sh_set_cb None shb1) s1) _ a b sha (sh_set_base None false (sh_set_cb None sha))
                    (sh_set_cb (sh_cb sha) (sh_set_base (sh_reader sha) (sh_created sha) shb1)) Hf) as Hm.
      replace (set_shell b (sh_set_cb (sh_cb sha) (sh_set_base (sh_reader sha) (sh_created sha) shb1))
                (set_shell a (sh_set_base None false (sh_set_cb None sha)) (set_shell b shb1 s1)))
        with (set_shell b (sh_set_cb (sh_cb sha) (sh_set_base (sh_reader sha) (sh_created sha) shb1))
                (set_shell a (sh_set_base None false (sh_set_cb None sha)) (set_shell b (sh_set_cb None shb1) s1))).
      2:{ apply shell_mid; auto. rewrite Hsh, Hb. discriminate. }
      replace (wo_set b (held_by sha) (wo_set a (nothing_of (held_by sha)) w))
        with (wo_set b (held_by sha) (wo_set a (nothing_of (held_by sha)) (wo_set b (Holding (sh_kind shb) None None) w))).
      2:{ apply world_mid; auto. rewrite Hobj, Hb. discriminate. }
      apply Hm; auto; try congruence.
      + cbn. rewrite aget_aset_other by auto. congruence.
      + cbn. rewrite aget_aset_same. intros y [= <-]. exact Hr.
      + cbn. congruence.
    - destruct (live k s) as [sh|] eqn:L; [|discriminate]. apply live_spec in L. destruct L as [Hk Hdd].
      assert (X : forall s1 x, agrees (set_shell k x s1) (wo_set k (Holding (sh_kind sh) None None) w) -> sh_reader x = None ->
                agrees (forget k s1) (World (adel k (wo_objects w)) (wo_waiting w) (wo_next w))).
      { intros s1 x Ha Hx. pose proof (agrees_forget _ _ k x Ha (aget_aset_same _ _ _) Hx) as Hf. rewrite forget_set in Hf.
        unfold wo_set in Hf. cbn [wo_objects wo_waiting wo_next] in Hf. now rewrite adel_aset_same in Hf. }
      cbn [wo_step]. unfold die in Hs.
      assert (Y : sh_kind sh <> KMsg ->
        (let '(s1, sh1, _) := typed_destroy sh s in
         match aget k (ts_shells (set_shell k (sh_kill sh1) s1)) with
         | Some sh2 => Some (gone k sh2 (set_shell k (sh_kill sh1) s1), TBool true)
         | None => None
         end) = Some (s', out) -> agrees s' (World (adel k (wo_objects w)) (wo_waiting w) (wo_next w))).
      { intros _ Q. destruct (agrees_destroy s w k sh H Hk) as [H1 H2]. destruct (typed_destroy sh s) as [[s1 sh1] ret]. cbn [fst snd] in *.
        cbn [set_shell ts_shells] in Q. rewrite aget_aset_same in Q. apply some_inj in Q. apply (f_equal fst) in Q. cbn [fst] in Q. subst s'.
        change (TState (aset k (sh_kill sh1) (ts_shells s1)) (ts_readers s1) (ts_gate s1) (ts_next s1) (ts_known s1)) with (set_shell k (sh_kill sh1) s1).
        rewrite gone_eq, base_destroy_set, base_destroy_none by now rewrite H2. cbn [fst snd]. rewrite forget_set.
        apply (X s1 sh1); auto. now rewrite H2. }
      destruct (sh_kind sh) eqn:Ekd.
      + apply Y; [discriminate|]. destruct (typed_destroy sh s) as [[s1 sh1] ret]. exact Hs.
      + destruct (agrees_base s w k sh H Hk) as [H1 H2]. rewrite Ekd in H1.
        cbn [set_shell ts_shells] in Hs. rewrite aget_aset_same in Hs. apply some_inj in Hs. apply (f_equal fst) in Hs. cbn [fst] in Hs. subst s'.
        change (TState (aset k (sh_kill sh) (ts_shells s)) (ts_readers s) (ts_gate s) (ts_next s) (ts_known s)) with (set_shell k (sh_kill sh) s).
        rewrite gone_eq, base_destroy_set. cbn [fst snd]. rewrite forget_set.
        replace (fst (fst (base_destroy (sh_kill sh) s))) with (fst (fst (base_destroy sh s))).
        * eapply X; [exact H1|]. rewrite H2. reflexivity.
        * unfold base_destroy. change (sh_created (sh_kill sh)) with (sh_created sh). change (sh_reader (sh_kill sh)) with (sh_reader sh).
          destruct (sh_created sh); cbn [negb]; [|reflexivity]. destruct (sh_reader sh); reflexivity.
      + apply Y; [discriminate|]. destruct (typed_destroy sh s) as [[s1 sh1] ret]. exact Hs.
    - destruct (live k s) as [sh|] eqn:L; [|discriminate]. apply live_spec in L. destruct L as [Hk Hdd]. apply some_inj in Hs.
      pose proof (agrees_receive s w k sh H Hk) as [H1 H2]. rewrite Hs in *. auto.
    - apply some_inj in Hs. pose proof (agrees_arrive s w r p H) as [H1 H2]. rewrite Hs in *. auto.
    - injection Hs as <- <-. cbn [wo_step]. destruct H as [H1 H2 H3 H4 H5 H6 H7]. constructor; auto. destruct H1. now constructor.
  Qed.
  Lemma agrees_run : forall os s s' w outs, agrees s w -> sedate os w = true -> t_run dec os s = Some (s', outs) -> agrees s' (fold_left wo_step os w).
  Proof.
    induction os as [|o os IH]; intros s s' w outs H Hd Hr; cbn in Hd, Hr |- *; [now injection Hr as <- <-|].
    apply andb_prop in Hd. destruct Hd as [Hd1 Hd2].
    destruct (t_step dec o s) as [[s1 out]|] eqn:Es; [|discriminate]. destruct (t_run dec os s1) as [[s2 outs2]|] eqn:Er; [|discriminate].
    injection Hr as <- <-. apply (IH s1 s2 _ outs2); auto. now apply (agrees_step o s s1 w out).
  Qed.
  Lemma run_last : forall os o s s' outs out, t_run dec (os ++ [o]) s = Some (s', outs ++ [out]) ->
    exists s1, t_run dec os s = Some (s1, outs) /\ t_step dec o s1 = Some (s', out).
  Proof.
    intros os o s s' outs out H. rewrite run_app in H. destruct (t_run dec os s) as [[s1 outs1]|] eqn:E; [|discriminate]. cbn in H.
    destruct (t_step dec o s1) as [[s2 out2]|] eqn:Es; [|discriminate]. injection H as <- H. apply app_inj_tail in H. destruct H as [-> ->].
    exists s1. auto.
  Qed.
  Lemma served_lemma : forall os r p s outs out, sedate os wo_init = true ->
    t_run dec (os ++ [TArrive r p]) ts_init = Some (s, outs ++ [out]) -> served dec (wo_run os) r p out.
  Proof.
    intros os r p s outs out Hd Hr. destruct (run_last os _ _ _ _ _ Hr) as (s1 & H1 & H2).
    pose proof (agrees_run os ts_init s1 wo_init outs agrees_init Hd H1) as Ha.
    apply (agrees_step (TArrive r p) s1 s (wo_run os) out Ha eq_refl H2).
  Qed.
  Lemma received_lemma : forall os k s outs out, sedate os wo_init = true ->
    t_run dec (os ++ [TReceive k]) ts_init = Some (s, outs ++ [out]) -> received dec (wo_run os) k out.
  Proof.
    intros os k s outs out Hd Hr. destruct (run_last os _ _ _ _ _ Hr) as (s1 & H1 & H2).
    pose proof (agrees_run os ts_init s1 wo_init outs agrees_init Hd H1) as Ha.
    apply (agrees_step (TReceive k) s1 s (wo_run os) out Ha eq_refl H2).
  Qed.
  Lemma safe_lemma : forall os q s outs, existsb deprecated os = false -> orderly os PdNone = Some q ->
    t_run dec os ts_init = Some (s, outs) -> ~ In TUb outs.
  Proof. intros os q s outs Hd Ho Hr. apply (no_ub_lemma dec os ts_init s outs PdNone q); auto; [apply sound_init|apply modern_init]. Qed.
  Lemma gate_lemma : forall os q s outs, orderly os PdNone = Some q -> t_run dec os ts_init = Some (s, outs) ->
    NoDup (ts_gate s) /\
    (forall r, In r (ts_gate s) <-> exists k sh, aget k (ts_shells s) = Some sh /\ sh_reader sh = Some r) /\
    (forall k k' sh sh' r, aget k (ts_shells s) = Some sh -> aget k' (ts_shells s) = Some sh' -> sh_reader sh = Some r -> sh_reader sh' = Some r -> k = k').
  Proof.
    intros os q s outs Ho Hr. pose proof (sound_run dec os ts_init s outs PdNone q sound_init Hr Ho) as H. destruct H. auto.
  Qed.
End Simulation.

(** ** Dynamic subscribers *)
Section Dynamic.
  Variable dec : option nat -> list Z -> option (list Z).

  Lemma base_destroy_info : forall sh s, sh_info (snd (fst (base_destroy sh s))) = sh_info sh.
  Proof. intros sh s. unfold base_destroy. destruct (sh_created sh); cbn [negb]; [|reflexivity]. destruct (sh_reader sh); reflexivity. Qed.
  Lemma typed_destroy_info : forall sh s, sh_info (snd (fst (typed_destroy sh s))) = sh_info sh.
  Proof.
    intros sh s. unfold typed_destroy. pose proof (typed_rem_eq sh s) as E. destruct (typed_rem sh s) as [[s1 sh1] ret]. cbn in E. injection E as -> ->.
    now rewrite base_destroy_info.
  Qed.
  Lemma populate_info : forall sh s i, sh_info sh = Some i -> sh_info (populate sh s) = Some i.
  Proof. intros sh s i H. unfold populate. now rewrite H. Qed.
  (** Nothing changes at k, or its object is changed without touching what it knows. *)
  Definition knows (k i : nat) (s : tstate) : Prop := exists sh, aget k (ts_shells s) = Some sh /\ sh_info sh = Some i.
  Lemma knows_set : forall k i j x s, knows k i s -> (j = k -> sh_info x = Some i) -> knows k i (set_shell j x s).
  Proof.
    intros k i j x s (sh & H1 & H2) Hx. unfold knows. cbn. destruct (Nat.eq_dec k j) as [->|N].
    - exists x. rewrite aget_aset_same. auto.
    - exists sh. rewrite aget_aset_other by auto. auto.
  Qed.
  Lemma knows_same : forall k i s s', knows k i s -> ts_shells s' = ts_shells s -> knows k i s'.
  Proof. intros k i s s' H E. unfold knows. now rewrite E. Qed.
  Lemma knows_info : forall k i s sh, knows k i s -> aget k (ts_shells s) = Some sh -> sh_info sh = Some i.
  Proof. intros k i s sh (x & H1 & H2) H. congruence. Qed.
  Lemma knows_create : forall k i j sh t s, knows k i s -> (j = k -> sh_info sh = Some i) -> knows k i (fst (base_create j sh t s)).
  Proof.
    intros k i j sh t s H Hj. unfold base_create. destruct (sh_created sh); [exact H|]. destruct t; [exact H|].
    apply (knows_same k i (set_shell j (sh_set_base (Some (ts_next s)) true sh) s)); [|reflexivity]. now apply knows_set.
  Qed.
  Lemma knows_forget : forall k i j s, knows k i s -> j <> k -> knows k i (forget j s).
  Proof.
    intros k i j s (sh & H1 & H2) N. exists sh. split; auto. cbn. rewrite aget_adel. assert (E : eqb k j = false) by (apply neq_eqb; auto). now rewrite E.
  Qed.
  Lemma knows_gone : forall k i j sh s, knows k i s -> j <> k -> knows k i (gone j sh s).
  Proof. intros k i j sh s H N. rewrite gone_eq. apply knows_forget; auto. apply (knows_same k i s); auto. apply base_destroy_any. Qed.
  Lemma knows_die : forall k i j sh s, knows k i s -> j <> k -> knows k i (die j sh s).
  Proof.
    intros k i j sh s H N. unfold die. destruct (typed_destroy_any sh s) as [E _]. destruct (typed_destroy sh s) as [[s1 sh1] x]. cbn in E.
    destruct (sh_kind sh); (apply knows_set; [|congruence]); auto; now apply (knows_same k i s).
  Qed.

  Lemma knows_step : forall o s s' out k i, t_step dec o s = Some (s', out) -> renews k o = false -> knows k i s -> knows k i s'.
  Proof.
    intros o s s' out k i Hs Hr H.
    destruct o as [j kd t|j t|j cb|j|j e|j|a b|a b|b|a b|j|j|j|j|r p|t z]; cbn [t_step renews] in Hs, Hr;
      try (apply Nat.eqb_neq in Hr).
    - destruct (is_fresh j s); [|discriminate]. apply some_inj in Hs. cbv zeta in Hs.
      replace s' with (fst (base_create j (sh_new kd t) t (set_shell j (sh_new kd t) s))) by now rewrite Hs.
      apply knows_create; [apply knows_set; auto|]; congruence.
    - destruct (live j s) as [sh|] eqn:L; [|discriminate]. apply live_spec in L. destruct L as [L _]. apply some_inj in Hs.
      replace s' with (fst (base_create j sh t s)) by now rewrite Hs. apply knows_create; auto. intros ->. now apply (knows_info k i s).
    - destruct (live j s) as [sh|] eqn:L; [|discriminate]. apply live_spec in L. destruct L as [L _].
      pose proof (typed_rem_eq sh s) as E. destruct (typed_rem sh s) as [[s1 sh1] ret]. cbn in E. injection E as -> ->.
      destruct (bind_reader _ _ _) as [s2 ret2] eqn:B. injection Hs as <- <-.
      eapply knows_same; [|replace s2 with (fst (s2, ret2)) by reflexivity; rewrite <- B; apply bind_keeps].
      apply knows_set; [apply (knows_same k i s); auto; apply bind_keeps|]. intros ->. cbn. now apply (knows_info k i s).
    - destruct (live j s) as [sh|] eqn:L; [|discriminate]. apply live_spec in L. destruct L as [L _].
      pose proof (typed_rem_eq sh s) as E. destruct (typed_rem sh s) as [[s1 sh1] ret]. cbn in E. injection E as -> ->. injection Hs as <- <-.
      apply knows_set; [apply (knows_same k i s); auto; apply bind_keeps|]. intros ->. cbn. now apply (knows_info k i s).
    - destruct (live j s) as [sh|] eqn:L; [|discriminate]. apply live_spec in L. destruct L as [L _]. injection Hs as <- <-.
      apply knows_set; auto. intros ->. cbn. now apply (knows_info k i s).
    - destruct (live j s) as [sh|] eqn:L; [|discriminate]. apply live_spec in L. destruct L as [L _].
      destruct (typed_destroy_any sh s) as [E1 _]. pose proof (typed_destroy_info sh s) as E2. destruct (typed_destroy sh s) as [[s1 sh1] ret]. cbn in E1, E2. injection Hs as <- <-.
      apply knows_set; [now apply (knows_same k i s)|]. intros ->. rewrite E2. now apply (knows_info k i s).
    - destruct (live a s) as [sh|] eqn:L; [|discriminate]. apply live_spec in L. destruct L as [L _].
      destruct (is_fresh b s); [|discriminate]. cbn in Hs. injection Hs as <- <-. eapply knows_same; [|apply rebind_keeps].
      apply knows_set; [|congruence]. apply knows_set; auto. intros ->. cbn. now apply (knows_info k i s).
    - destruct (live a s) as [sh|] eqn:L; [|discriminate]. apply live_spec in L. destruct L as [L _].
      destruct (is_fresh b s); [|discriminate]. cbn in Hs. injection Hs as <- <-.
      apply knows_set; [|congruence]. apply knows_set; auto. intros ->. cbn. now apply (knows_info k i s).
    - destruct (live b s) as [sh|] eqn:L; [|discriminate]. injection Hs as <- <-. eapply knows_same; [exact H|apply rebind_keeps].
    - destruct (live a s) as [sha|] eqn:La; [|discriminate]. destruct (live b s) as [shb|] eqn:Lb; [|discriminate].
      assert (X : forall s1 shb1, ts_shells s1 = ts_shells s ->
        match aget a (aset b shb1 (ts_shells s1)) with
        | None => None
        | Some y => if Nat.eqb a b then Some (rebind b (sh_set_base (sh_reader y) false y) (set_shell b (sh_set_base (sh_reader y) false y) (set_shell b shb1 s1)), TBool true)
                    else Some (rebind b (sh_set_cb (sh_cb y) (sh_set_base (sh_reader y) (sh_created y) shb1))
                        (set_shell b (sh_set_cb (sh_cb y) (sh_set_base (sh_reader y) (sh_created y) shb1))
                           (set_shell a (sh_set_base None false (sh_set_cb None y)) (set_shell b shb1 s1))), TBool true)
        end = Some (s', out) -> knows k i s').
      { intros s1 shb1 E Q. assert (H1 : knows k i (set_shell b shb1 s1)) by (apply knows_set; [now apply (knows_same k i s)|congruence]).
        destruct (aget a (aset b shb1 (ts_shells s1))) as [y|] eqn:Ey; [|discriminate].
        destruct (Nat.eqb a b); apply some_inj in Q; apply (f_equal fst) in Q; cbn [fst] in Q; subst s'; (eapply knows_same; [|apply rebind_keeps]).
        - apply knows_set; [auto|congruence].
        - apply knows_set; [|congruence]. apply knows_set; auto. intros ->. cbn. now apply (knows_info k i _ y H1). }
      destruct (sh_kind sha), (sh_kind shb); try discriminate; cbn -[rebind set_shell base_destroy typed_destroy] in Hs.
      + destruct (typed_destroy_any shb s) as [E1 _]. destruct (typed_destroy shb s) as [[s1 shb1] x]. now apply (X s1 shb1).
      + destruct (base_destroy_any shb s) as [E1 _]. destruct (base_destroy shb s) as [[s1 shb1] x]. now apply (X s1 shb1).
    - destruct (live j s) as [sh|] eqn:L; [|discriminate].
      assert (H1 : knows k i (die j sh s)) by (apply knows_die; auto). destruct (aget j (ts_shells (die j sh s))); [|discriminate]. injection Hs as <- <-. apply knows_gone; auto.
    - destruct (live j s) as [sh|] eqn:L; [|discriminate]. injection Hs as <- <-. apply knows_die; auto.
    - destruct (aget j (ts_shells s)) as [sh|]; [|discriminate]. destruct (sh_dead sh); [|discriminate]. injection Hs as <- <-. apply knows_gone; auto.
    - destruct (live j s) as [sh|] eqn:L; [|discriminate]. apply live_spec in L. destruct L as [L _]. apply some_inj in Hs.
      unfold typed_receive in Hs. destruct (sh_created sh); [|now injection Hs as <- <-]. destruct (sh_reader sh) as [r|]; [|now injection Hs as <- <-].
      destruct (aget r (ts_readers s)) as [rd|]; [|now injection Hs as <- <-]. destruct (tr_running rd); [|now injection Hs as <- <-].
      destruct (tr_buf rd) as [p|]; [|now injection Hs as <- <-].
      destruct (sh_kind sh) eqn:Ek; injection Hs as <- <-; try (now apply (knows_same k i s)).
      apply knows_set; [now apply (knows_same k i s)|]. intros ->. apply populate_info. now apply (knows_info k i s).
    - apply some_inj in Hs. unfold arrive in Hs. destruct (aget r (ts_readers s)) as [rd|]; [|now injection Hs as <- <-].
      destruct (tr_running rd); [|now injection Hs as <- <-]. destruct (tr_bound rd) as [j|]; [|injection Hs as <- <-; now apply (knows_same k i s)].
      destruct (aget j (ts_shells s)) as [sh|] eqn:Ek; [|now injection Hs as <- <-]. destruct (sh_dead sh); [now injection Hs as <- <-|].
      unfold receive_callback in Hs. destruct (sh_cb sh); [|now injection Hs as <- <-].
      destruct (sh_kind sh) eqn:Ekd; injection Hs as <- <-; auto. apply knows_set; auto. intros ->. apply populate_info. now apply (knows_info k i s).
    - injection Hs as <- <-. now apply (knows_same k i s).
  Qed.
  Lemma knows_run : forall os s s' outs k i, t_run dec os s = Some (s', outs) -> existsb (renews k) os = false -> knows k i s -> knows k i s'.
  Proof.
    induction os as [|o os IH]; intros s s' outs k i Hr Hn H; cbn in Hr, Hn; [now injection Hr as <- <-|].
    apply Bool.orb_false_iff in Hn. destruct Hn as [Hn1 Hn2].
    destruct (t_step dec o s) as [[s1 out]|] eqn:Es; [|discriminate]. destruct (t_run dec os s1) as [[s2 outs2]|] eqn:Er; [|discriminate].
    injection Hr as <- <-. apply (IH s1 s2 outs2); auto. now apply (knows_step o s s1 out).
  Qed.
  (** A message that reaches a dynamic object. *)
  Lemma dyn_arrive : forall s k sh cb r rd p, aget k (ts_shells s) = Some sh -> sh_kind sh = KDyn -> sh_dead sh = false -> sh_cb sh = Some cb ->
    aget r (ts_readers s) = Some rd -> tr_running rd = true -> tr_bound rd = Some k ->
    snd (arrive dec r p s) =
      match sh_info (populate sh s) with
      | Some i => match dec (Some i) p with Some v => TCall cb v | None => match sh_err sh with Some e => TError e | None => TIgnored end end
      | None => match sh_err sh with Some e => TError e | None => TIgnored end
      end /\
    (forall i, sh_info (populate sh s) = Some i -> knows k i (fst (arrive dec r p s))).
  Proof.
    intros s k sh cb r rd p Hk Hkd Hd Hcb Hr Hrun Hb. unfold arrive. rewrite Hr, Hrun, Hb, Hk, Hd. unfold receive_callback. rewrite Hcb, Hkd.
    split; [destruct (sh_info (populate sh s)); reflexivity|]. intros i Hi. exists (populate sh s). cbn. rewrite aget_aset_same. auto.
  Qed.
End Dynamic.

(** ** Publishers *)
Lemma skipn_all_nil : forall {X} (l : list X) n, (length l <= n)%nat -> skipn n l = [].
Proof. intros X l n H. apply skipn_all2. exact H. Qed.
Lemma resize_length : forall n b, length (resize n b) = n.
Proof. intros n b. unfold resize. rewrite app_length, repeat_length, firstn_length. lia. Qed.
Lemma honest_send : forall {M} (get_size : M -> nat) serialize code created b1 b2 write m buf, honest get_size serialize code -> b1 = true ->
  snd (typed_send M get_size serialize created b1 b2 write m buf) = plain_send created b2 write (code m).
Proof.
  intros M get_size serialize code created b1 b2 write m buf H ->. unfold typed_send. destruct (H m) as [H1 H2].
  destruct (get_size m) as [|n] eqn:E.
  - destruct (code m); [reflexivity|discriminate].
  - rewrite H1, H2. cbn [snd]. rewrite (skipn_all_nil (resize (length (code m)) buf)); [now rewrite app_nil_r|]. rewrite resize_length. lia.
Qed.
Lemma send_all_lemma : forall {M} (get_size : M -> nat) serialize code write (xs : list (bool * bool * M)) buf, honest get_size serialize code ->
  (forall b1 b2 m, In (b1, b2, m) xs -> b1 = b2) ->
  send_all get_size serialize write xs buf =
    (map (fun x : bool * bool * M => if fst (fst x) then PWrite (code (snd x)) else PCount) xs,
     map (fun x : bool * bool * M => if fst (fst x) then write (code (snd x)) else 0%Z) xs).
Proof.
  intros M get_size serialize code write xs. induction xs as [|[[b1 b2] m] xs IH]; intros buf H Hc; [reflexivity|].
  cbn [send_all map fst snd]. assert (E : b1 = b2) by (apply (Hc b1 b2 m); now left). subst b2.
  destruct b1.
  - pose proof (honest_send get_size serialize code true true true write m buf H eq_refl) as E.
    destruct (typed_send M get_size serialize true true true write m buf) as [buf1 [ds n]]. cbn in E. injection E as -> ->.
    rewrite (IH buf1 H) by (intros; eapply Hc; right; eauto). reflexivity.
  - cbn. rewrite (IH buf H) by (intros; eapply Hc; right; eauto). reflexivity.
Qed.
Lemma honest_string : honest str_size str_serialize (fun m => m).
Proof. intros m. unfold str_size, str_serialize. split; [reflexivity|]. now rewrite Nat.leb_refl. Qed.

(** ** Protobuf servers *)
Section Protobuf.
  Variable methods_of : nat -> list text.
  Variable full_name : nat -> text.
  Variable parse : nat -> text -> list Z -> option (list Z).
  Variable invoke : nat * nat -> text -> list Z -> list Z.

  Lemma bound_fold : forall (ms bs : list text) (m : text), existsb (eqb m) (fold_left (fun bs m => if existsb (eqb m) bs then bs else bs ++ [m]) ms bs) = true <->
    In m ms \/ existsb (eqb m) bs = true.
  Proof.
    induction ms as [|x ms IH]; intros bs m; cbn; [intuition|]. rewrite IH. destruct (existsb (eqb x) bs) eqn:E.
    - split; [intuition|]. intros [[->|H]|H]; auto.
    - rewrite existsb_app. cbn. rewrite Bool.orb_false_r, Bool.orb_true_iff. split.
      + intros [H|[H|H]]; auto. apply eqb_true in H. auto.
      + intros [[->|H]|H]; auto. right. right. apply eqb_refl.
  Qed.
  Lemma methods_fold : forall (ty : nat) (ms : list text) t (m : text), aget m (fold_left (fun t m => aset m (ty, m) t) ms t) = if existsb (eqb m) ms then Some (ty, m) else aget m t.
  Proof.
    intros ty ms. induction ms as [|x ms IH]; intros t m; cbn; [reflexivity|]. rewrite IH. destruct (existsb (eqb m) ms); [now rewrite Bool.orb_true_r|].
    rewrite Bool.orb_false_r, aget_aset. destruct (eqb m x) eqn:E; [|reflexivity]. apply eqb_true in E. now subst.
  Qed.
  Lemma existsb_in : forall m (l : list text), existsb (eqb m) l = true <-> In m l.
  Proof.
    intros m l. rewrite existsb_exists. split; [intros (x & H1 & H2); apply eqb_true in H2; now subst|intros H; exists m; split; auto; apply eqb_refl].
  Qed.
  Notation run := (pv_run methods_of full_name parse invoke).
  Definition serving (sv : option (nat * nat)) (ty : nat) (s : pserver) : Prop :=
    (exists b, pv_base s = Some b) /\ pv_dead s = false /\ pv_service s = sv /\
    (forall m, existsb (eqb m) (pv_bound s) = true <-> In m (methods_of ty)) /\
    (forall m, aget m (pv_methods s) = if existsb (eqb m) (methods_of ty) then Some (ty, m) else None).
  Lemma serving_create : forall sv name s out, pv_step methods_of full_name parse invoke (PCreate (Some sv) name) pv_init = Some (s, out) -> serving (Some sv) (fst sv) s.
  Proof.
    intros sv name s out H. cbn in H. injection H as <- <-. unfold serving. cbn. repeat split; eauto.
    - intros H. apply bound_fold in H. destruct H as [H|H]; [exact H|discriminate].
    - intros H. apply bound_fold. auto.
    - intros m. now rewrite methods_fold.
  Qed.
  Lemma serving_again : forall sv sv' ty name s s' out, serving sv ty s -> fst sv' = ty ->
    pv_step methods_of full_name parse invoke (PCreate (Some sv') name) s = Some (s', out) -> serving (Some sv') ty s'.
  Proof.
    intros sv sv' ty name s s' out ((b & B) & D & S & M1 & M2) Et H. cbn [pv_step] in H. rewrite D in H. cbn [pv_create] in H. injection H as <- <-.
    unfold serving. cbn. rewrite B, Et. repeat split; eauto.
    - intros H. apply bound_fold in H. destruct H as [H|H]; auto. now apply M1.
    - intros H. apply bound_fold. auto.
    - intros m. rewrite methods_fold. destruct (existsb (eqb m) (methods_of ty)) eqn:E; [reflexivity|]. now rewrite M2, E.
  Qed.
  Lemma serving_request : forall sv ty s m q, serving sv ty s -> (forall x, sv = Some x -> fst x = ty) ->
    pv_step methods_of full_name parse invoke (PRequest m q) s =
      Some (s, if existsb (eqb m) (methods_of ty)
               then match sv with
                    | Some x => match parse ty m q with Some y => PAnswer 0 (invoke x m y) | None => PAnswer (-1) [] end
                    | None => PAnswer (-1) []
                    end
               else PNoMethod).
  Proof.
    intros sv ty s m q ((b & B) & D & S & M1 & M2) Ht. cbn. rewrite B, D. do 2 f_equal.
    destruct (existsb (eqb m) (methods_of ty)) eqn:E.
    - assert (E2 : existsb (eqb m) (pv_bound s) = true) by (apply M1; now apply existsb_in). rewrite E2.
      unfold pv_callback. rewrite S, M2, E. destruct sv as [x|]; [|reflexivity]. rewrite (Ht x eq_refl), Nat.eqb_refl. reflexivity.
    - destruct (existsb (eqb m) (pv_bound s)) eqn:E2; [|reflexivity]. apply M1, existsb_in in E2. congruence.
  Qed.
  Lemma serving_destroy : forall sv ty s s' out, serving sv ty s -> pv_step methods_of full_name parse invoke PDestroy s = Some (s', out) -> serving None ty s'.
  Proof.
    intros sv ty s s' out ((b & B) & D & S & M1 & M2) H. cbn in H. rewrite D in H. injection H as <- <-. unfold serving. cbn. repeat split; eauto; apply M1.
  Qed.
  Lemma serving_run : forall os sv ty s s' outs, serving sv ty s -> (forall x, sv = Some x -> fst x = ty) -> forallb (pv_same_type ty) os = true ->
    run os s = Some (s', outs) ->
    serving (fold_left pv_current os sv) ty s' /\ (forall x, fold_left pv_current os sv = Some x -> fst x = ty) /\ ~ In PUb outs.
  Proof.
    induction os as [|o os IH]; intros sv ty s s' outs H Ht Hf Hr; cbn in Hf, Hr |- *; [injection Hr as <- <-; auto|].
    apply andb_prop in Hf. destruct Hf as [Hf1 Hf2].
    destruct (pv_step methods_of full_name parse invoke o s) as [[s1 out]|] eqn:Es; [|discriminate]. destruct (run os s1) as [[s2 outs2]|] eqn:Er; [|discriminate].
    injection Hr as <- <-.
    assert (X : serving (pv_current sv o) ty s1 /\ (forall x, pv_current sv o = Some x -> fst x = ty) /\ out <> PUb).
    { destruct o as [[x|] name| | | | |m q]; try discriminate.
      - cbn in Hf1. apply Nat.eqb_eq in Hf1. split; [now apply (serving_again sv x ty name s s1 out)|]. split; [cbn; congruence|].
        destruct H as (_ & D & _). cbn in Es. rewrite D in Es. cbn in Es. injection Es as <- <-. discriminate.
      - assert (D : pv_dead s = false) by apply H. cbn in Es. rewrite D in Es. injection Es as <- <-. repeat split; auto; try apply H. discriminate.
      - split; [now apply (serving_destroy sv ty s s1 out)|]. split; [discriminate|].
        destruct H as (_ & D & _). cbn in Es. rewrite D in Es. injection Es as <- <-. discriminate.
      - rewrite (serving_request sv ty s m q H Ht) in Es. apply some_inj in Es.
        assert (E1 : s = s1) by exact (f_equal fst Es). assert (E2 := f_equal snd Es). cbn [snd] in E2. subst s1. split; [exact H|]. split; [exact Ht|]. rewrite <- E2.
        destruct (existsb (eqb m) (methods_of ty)); [|discriminate]. destruct sv; [|discriminate]. destruct (parse ty m q); discriminate. }
    destruct X as (X1 & X2 & X3). destruct (IH (pv_current sv o) ty s1 s2 outs2 X1 X2 Hf2 Er) as (Y1 & Y2 & Y3).
    repeat split; auto; try apply Y1. intros [E|E]; auto.
  Qed.
  Lemma proto_lemma : forall os sv name m q s outs out, forallb (pv_same_type (fst sv)) os = true ->
    run (PCreate (Some sv) name :: os ++ [PRequest m q]) pv_init = Some (s, outs ++ [out]) ->
    ~ In PUb (outs ++ [out]) /\
    match fold_left pv_current os (Some sv) with
    | Some x => proto_answer methods_of parse invoke x m q out
    | None => out = if existsb (eqb m) (methods_of (fst sv)) then PAnswer (-1) [] else PNoMethod
    end.
  Proof.
    intros os sv name m q s outs out Hf Hr. cbn [pv_run] in Hr.
    destruct (pv_step methods_of full_name parse invoke (PCreate (Some sv) name) pv_init) as [[s1 out1]|] eqn:E1; [|discriminate].
    pose proof (serving_create sv name s1 out1 E1) as H1.
    assert (N1 : out1 <> PUb) by (cbn in E1; injection E1 as <- <-; discriminate).
    destruct (pv_run methods_of full_name parse invoke (os ++ [PRequest m q]) s1) as [[s2 outs2]|] eqn:E2; [|discriminate]. apply some_inj in Hr.
    assert (G : out1 :: outs2 = outs ++ [out]) by exact (f_equal snd Hr). rewrite <- G.
    assert (Hf2 : forallb (pv_same_type (fst sv)) (os ++ [PRequest m q]) = true) by (rewrite forallb_app, Hf; reflexivity).
    destruct (serving_run (os ++ [PRequest m q]) (Some sv) (fst sv) s1 s2 outs2 H1) as (_ & _ & N2); auto; [congruence|].
    split; [intros [E|E]; auto|].
    assert (X : exists s3 outs3 out3, run os s1 = Some (s3, outs3) /\ pv_step methods_of full_name parse invoke (PRequest m q) s3 = Some (s2, out3) /\ outs2 = outs3 ++ [out3]).
    { clear - E2. revert s1 outs2 E2. induction os as [|o os IH]; intros s1 outs2 E2; cbn [app pv_run] in E2.
      - destruct (pv_step methods_of full_name parse invoke (PRequest m q) s1) as [[x y]|] eqn:E; [|discriminate]. injection E2 as <- <-. exists s1, [], y. auto.
      - destruct (pv_step methods_of full_name parse invoke o s1) as [[x y]|] eqn:E; [|discriminate].
        destruct (run (os ++ [PRequest m q]) x) as [[x2 y2]|] eqn:E3; [|discriminate]. injection E2 as <- <-.
        destruct (IH x y2 E3) as (s3 & outs3 & out3 & A1 & A2 & ->). exists s3, (y :: outs3), out3. cbn [pv_run]. rewrite E, A1. auto. }
    destruct X as (s3 & outs3 & out3 & A1 & A2 & ->).
    destruct (serving_run os (Some sv) (fst sv) s1 s3 outs3 H1) as (B1 & B2 & _); auto; [congruence|].
    rewrite (serving_request _ _ _ m q B1 B2) in A2. apply some_inj in A2. assert (A3 := f_equal snd A2). cbn [snd] in A3.
    assert (Eo : out3 = out) by (apply (f_equal (fun l => last l PClosed)) in G; change (out1 :: outs3 ++ [out3]) with ((out1 :: outs3) ++ [out3]) in G; now rewrite !last_last in G).
    rewrite <- Eo, <- A3. clear Eo A3. destruct (fold_left pv_current os (Some sv)) as [x|] eqn:Ex; [|reflexivity].
    unfold proto_answer. rewrite (B2 x eq_refl). split; intros Hin.
    - assert (E : existsb (eqb m) (methods_of (fst sv)) = true) by now apply existsb_in. now rewrite E.
    - destruct (existsb (eqb m) (methods_of (fst sv))) eqn:E; [|reflexivity]. apply existsb_in in E. contradiction.
  Qed.
End Protobuf.

Lemma decoding_lemma : forall dec s k sh cb r rd p, aget k (ts_shells s) = Some sh -> sh_kind sh = KDyn -> sh_dead sh = false -> sh_cb sh = Some cb ->
  aget r (ts_readers s) = Some rd -> tr_running rd = true -> tr_bound rd = Some k ->
  (forall i, sh_info sh = Some i \/ (sh_info sh = None /\ aget (sh_topic sh) (ts_known s) = Some i /\ i <> 0) ->
     snd (arrive dec r p s) = match dec (Some i) p with Some v => TCall cb v | None => complain (sh_err sh) end /\
     exists sh', aget k (ts_shells (fst (arrive dec r p s))) = Some sh' /\ sh_info sh' = Some i) /\
  (sh_info sh = None -> aget (sh_topic sh) (ts_known s) = None \/ aget (sh_topic sh) (ts_known s) = Some 0 ->
     snd (arrive dec r p s) = complain (sh_err sh)).
Proof.
  intros dec s k sh cb r rd p Hk Hkd Hd Hcb Hr Hrun Hb.
  destruct (dyn_arrive dec s k sh cb r rd p Hk Hkd Hd Hcb Hr Hrun Hb) as [E1 E2]. split.
  - intros i Hi. assert (X : sh_info (populate sh s) = Some i).
    { unfold populate. destruct Hi as [Hi|(Hi & Hn & Hz)]; rewrite Hi; [exact Hi|]. rewrite Hn. destruct i; [contradiction|reflexivity]. }
    rewrite X in E1. split; [exact E1|]. destruct (E2 i X) as (sh' & A & B). eauto.
  - intros Hn Hk2. assert (X : sh_info (populate sh s) = None) by (unfold populate; rewrite Hn; destruct Hk2 as [->| ->]; exact Hn).
    rewrite X in E1. exact E1.
Qed.
Lemma stays_lemma : forall dec os s s2 outs k sh i, aget k (ts_shells s) = Some sh -> sh_info sh = Some i ->
  existsb (renews k) os = false -> t_run dec os s = Some (s2, outs) ->
  exists sh2, aget k (ts_shells s2) = Some sh2 /\ sh_info sh2 = Some i /\
    forall cb r rd p, sh_kind sh2 = KDyn -> sh_dead sh2 = false -> sh_cb sh2 = Some cb ->
      aget r (ts_readers s2) = Some rd -> tr_running rd = true -> tr_bound rd = Some k ->
      snd (arrive dec r p s2) = match dec (Some i) p with Some v => TCall cb v | None => complain (sh_err sh2) end.
Proof.
  intros dec os s s2 outs k sh i Hk Hi Hn Hr.
  destruct (knows_run dec os s s2 outs k i Hr Hn) as (sh2 & A & B); [exists sh; auto|].
  exists sh2. repeat split; auto. intros cb r rd p Hkd Hd Hcb Hrd Hrun Hb.
  apply (decoding_lemma dec s2 k sh2 cb r rd p A Hkd Hd Hcb Hrd Hrun Hb). auto.
Qed.
Lemma string_lemma : honest str_size str_serialize (fun m => m) /\ (forall m, str_deserialize m = Some m).
Proof. split; [exact honest_string|reflexivity]. Qed.
Lemma failed_lemma : forall {M : Type} (get_size : M -> nat) serialize write b2 m buf, get_size m <> 0 -> serialize m (get_size m) = None ->
  snd (typed_send M get_size serialize true true b2 write m buf) = ([], 0%Z).
Proof. intros M get_size serialize write b2 m buf H1 H2. unfold typed_send. destruct (get_size m) as [|n]; [contradiction|]. now rewrite H2. Qed.
