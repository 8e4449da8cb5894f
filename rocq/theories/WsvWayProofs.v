(** Proofs about services as a whole: the way of a call from a session that is not yet connected. *)
From Coq Require Import Lia Bool.
From Verif Require Import Base Sample ExpMapModel PbModel PbSpec SerModel SerSpec SrvModel SrvSpec CliModel CliSpec FrmModel RpcModel RpcSpec RpcProofs SdsModel WsvModel WsvSpec WsvProofs WsvNetProofs WsvEndProofs.
From Verif Require SdsSpec SdsProofs.

(** ** Sessions that are not connected *)
Definition calls_of (l : list post) : list nat := flat_map (fun h => match h with HCall c => [c] | HFlush => [] end) l.
Definition no_flush (l : list post) : Prop := forall h, In h l -> h <> HFlush.
Record fresh (r : rpc) (tr : list xev) : Prop := {
  f_up : x_up r = []; f_down : x_down r = []; f_sr : x_sread r = reader0; f_cr : x_cread r = reader0; f_sess : x_sess r = SHandshake;
  f_cur : c_cur (x_cli r) = None; f_busy : c_busy (x_cli r) = false; f_peeks : c_peeks (x_cli r) = []; f_loss : c_losses (x_cli r) = 0;
  f_phase : match c_phase (x_cli r) with PResolve _ | PFailed => True | PConnecting _ => c_sock (x_cli r) = true \/ c_stopped (x_cli r) = true | _ => False end;
  f_posts : pfail (x_cli r) = false -> no_flush (c_posts (x_cli r));
  f_calls : pfail (x_cli r) = false -> c_queue (x_cli r) ++ calls_of (c_posts (x_cli r)) = seq 0 (c_next (x_cli r));
  f_asks : forall k bs, In (XAsk k bs) tr -> k < c_next (x_cli r);
  f_reqs : length (x_reqs r) = c_next (x_cli r);
  f_outs : outs tr = [] }.
Lemma calls_app a b : calls_of (a ++ b) = calls_of a ++ calls_of b. Proof. apply flat_map_app. Qed.
Lemma no_flush_app a b : no_flush a -> no_flush b -> no_flush (a ++ b).
Proof. intros A B h I1. apply in_app_iff in I1. destruct I1; auto. Qed.
Lemma fresh_init n h a i : fresh (x_init n h a i) [].
Proof. constructor; cbn; try reflexivity; auto; try (intros; contradiction). intros _ h0 []. Qed.
Lemma no_ask_cli l k bs : ~ In (XAsk k bs) (map XCli l).
Proof. induction l as [|e l IH]; cbn; [tauto|]. intros [Q|Q]; [discriminate|auto]. Qed.
Lemma fresh_step o r tr r' e : alone o = true -> fresh r tr -> x_step o r = Some (r', e) -> fresh r' (tr ++ e).
Proof.
  intros AL F E. destruct F as [F1 F2 F3 F4 F5 F6 F7 F8 F9 FA FB FC FD FE FF]. destruct o as [bs|op| | |op|]; try discriminate; cbn [x_step] in E.
  - cbn [c_step] in E. destruct (c_stopped (x_cli r)) eqn:ST; injection E as <- <-.
    + constructor; cbn; auto; try (rewrite ST; assumption).
      * intros k b I1. apply in_app_iff in I1. destruct I1 as [I1|[I1|[]]]; [eauto|discriminate].
      * rewrite outs_app, FF. reflexivity.
    + constructor; cbn [x_up x_down x_sread x_cread x_sess x_cli x_reqs c_cur c_busy c_peeks c_losses c_phase c_sock c_stopped c_posts c_queue c_next]; auto.
      * unfold pfail. cbn. intros P. apply no_flush_app; [apply FB, P|]. intros h [<-|[]]. discriminate.
      * intros P. rewrite calls_app, app_assoc, (FC P), seq_S. reflexivity.
      * intros k b I1. apply in_app_iff in I1. destruct I1 as [I1|[I1|[I1|[]]]]; [specialize (FD _ _ I1); lia|discriminate|]. injection I1 as <- _. lia.
      * rewrite app_length, FE. cbn. lia.
      * rewrite outs_app, FF. reflexivity.
  - destruct (with_data op) eqn:WD; [discriminate|]. destruct (client op r) as [[s1 o1]|] eqn:C; [|discriminate].
    assert (G : fresh s1 (tr ++ o1) /\ match op, c_phase (x_cli s1) with CConnect true, PHsSend true => False | _, _ => True end).
    { split; [|destruct op as [| | | |[|]| | | | | |]; try exact Logic.I; discriminate].
      unfold client in C. destruct (c_step op (x_cli r)) as [[c ev]|] eqn:CS; [|discriminate].
      assert (K : fresh (set_cli c r) tr /\ forall d, ~ In (EvSend d) ev).
      { clear C E. unfold c_step in CS. destruct op as [| | |ok|ok|ok|hr|ok|rr|k ok|]; try discriminate.
        - injection CS as <- <-. split; [|intros d []]. constructor; cbn; auto. destruct (c_phase (x_cli r)); auto.
        - destruct (c_posts (x_cli r)) as [|[c0|] ps] eqn:PS; [discriminate| |].
          + assert (FAILED : c_phase (x_cli r) = PFailed -> Some (set_posts ps (x_cli r), [EvAnswer c0 AClosed]) = Some (c, ev) -> fresh (set_cli c r) tr /\ forall d, ~ In (EvSend d) ev).
            { intros PH Q. injection Q as <- <-. split; [|intros d [Q|[]]; discriminate]. constructor; cbn; auto; unfold pfail; cbn; rewrite ?PH; try discriminate; try exact Logic.I. }
            assert (EARLY : pfail (x_cli r) = false -> Some (set_queue (c_queue (x_cli r) ++ [c0]) (set_posts ps (x_cli r)), []) = Some (c, ev) -> fresh (set_cli c r) tr /\ forall d, ~ In (EvSend d) ev).
            { intros PF Q. injection Q as <- <-. split; [|intros d []]. specialize (FB PF). specialize (FC PF). constructor; cbn; auto; intros _.
              - intros h I1. apply FB. right. exact I1.
              - rewrite <- FC. cbn. rewrite <- app_assoc. reflexivity. }
            destruct (c_phase (x_cli r)) eqn:PH; try contradiction; [apply EARLY; [unfold pfail; rewrite PH; reflexivity|exact CS]..|apply FAILED; [reflexivity|exact CS]].
          + assert (PF : c_phase (x_cli r) = PFailed).
            { destruct (pfail (x_cli r)) eqn:P; [unfold pfail in P; destruct (c_phase (x_cli r)); congruence|]. exfalso. apply (FB eq_refl HFlush); [left; reflexivity|reflexivity]. }
            destruct (c_queue (x_cli r)) as [|c0 q] eqn:QU; injection CS as <- <-; (split; [|intros d I1; repeat destruct I1 as [I1|I1]; try discriminate; contradiction]);
              constructor; cbn; auto; unfold pfail; cbn; rewrite ?PF; try discriminate; try exact Logic.I.
        - destruct (c_phase (x_cli r)) eqn:PH; try discriminate. assert (PF : pfail (x_cli r) = false) by (unfold pfail; rewrite PH; reflexivity). specialize (FB PF). specialize (FC PF). destruct ok; [injection CS as <- <-|destruct (Nat.ltb _ _); [injection CS as <- <-|]].
          + split; [|intros d []]. constructor; cbn; auto.
          + split; [|intros d []]. constructor; cbn; auto.
          + unfold loss in CS. rewrite PH in CS. injection CS as <- <-. split; [|intros d []]. constructor; cbn; auto; unfold pfail; cbn; discriminate.
        - destruct (c_phase (x_cli r)) eqn:PH; try discriminate. assert (PF : pfail (x_cli r) = false) by (unfold pfail; rewrite PH; reflexivity). specialize (FB PF). specialize (FC PF). destruct ok; [discriminate AL|destruct (Nat.ltb _ _); [injection CS as <- <-|]].
          + split; [|intros d []]. constructor; cbn; auto.
          + unfold loss in CS. rewrite PH in CS. injection CS as <- <-. split; [|intros d []]. constructor; cbn; auto; unfold pfail; cbn; discriminate.
        - destruct (c_phase (x_cli r)); try discriminate; contradiction.
        - destruct (c_phase (x_cli r)); try discriminate; contradiction.
        - rewrite F6 in CS. discriminate.
        - rewrite F6 in CS. discriminate.
        - rewrite F8 in CS. destruct k; discriminate.
        - rewrite F9 in CS. discriminate. }
      destruct K as [K NS]. unfold write_request in C.
      assert (SN : started ev (x_cli (set_cli c r)) = None).
      { unfold started. replace (flat_map (fun e => match e with EvSend d => [d] | _ => [] end) ev) with (@nil nat); [reflexivity|]. clear -NS. induction ev as [|e0 l IH]; [reflexivity|]. cbn [flat_map].
        rewrite <- IH by (intros d I1; apply (NS d); right; exact I1). destruct e0; try reflexivity. exfalso. apply (NS c). left. reflexivity. }
      rewrite SN in C. injection C as <- <-. rewrite app_nil_r. destruct K as [G1 G2 G3 G4 G5 G6 G7 G8 G9 GA GB GC GD GE GF]. constructor; auto.
      - intros k b I1. apply in_app_iff in I1. destruct I1 as [I1|I1]; [eauto|]. apply no_ask_cli in I1. contradiction.
      - rewrite outs_app, GF. apply cli_events. }
    destruct G as [G1 G2].
    destruct op as [| | | |[|]| | | | | |]; try (injection E as <- <-; exact G1). destruct (c_phase (x_cli s1)) as [| |[|]| | |]; try contradiction; injection E as <- <-; exact G1.
  - rewrite F2 in E. discriminate.
Qed.
Lemma fresh_all ops s : wreach ops s -> forall n c, con s n c -> co_srv c = None -> fresh (co_rpc c) (co_tr c).
Proof.
  revert s. induction ops as [|o ops IH] using rev_ind; intros s R n c' N SV.
  - injection R as <-. destruct n; discriminate.
  - apply wreach_snoc in R. destruct R as (s1 & R & E). destruct (goes_step _ _ _ _ (n_all _ _ R) E) as (G1 & _ & _). destruct (G1 n c' N) as (c & ST & M).
    assert (F : co_srv c = None -> fresh (co_rpc c) (co_tr c)).
    { intros Q. destruct ST as [N0|(_ & p & x & nm & k & z & ->)]; [apply (IH _ R _ _ N0 Q)|apply fresh_init]. }
    destruct M as (_ & _ & [(Q & Q1 & Q2)|[(Q & o1 & e & X & T & _ & AL)|(i & t & e & _ & Q & _)]]); [| |congruence].
    + rewrite Q1, Q2. apply F. congruence.
    + rewrite T. apply (fresh_step o1 _ _ _ _ (AL ltac:(congruence)) (F ltac:(congruence)) X).
Qed.

Lemma apart_lemma ops s n c : wreach ops s -> wfits s -> con s n c -> co_srv c = None ->
  (forall j, c_phase (x_cli (co_rpc c)) <> PHsSend j /\ c_phase (x_cli (co_rpc c)) <> PHsRecv j) /\ c_phase (x_cli (co_rpc c)) <> PConnected /\ outs (co_tr c) = [] /\ gots (co_tr c) = [].
Proof.
  intros R F N SV. destruct (fresh_all _ _ R n c N SV) as [_ _ _ _ _ _ _ _ _ FA _ _ _ _ FF]. split; [intros j; destruct (c_phase (x_cli (co_rpc c))); try contradiction; split; discriminate|].
  split; [destruct (c_phase (x_cli (co_rpc c))); try contradiction; discriminate|]. split; [exact FF|]. destruct (gots (co_tr c)) as [|[k b] l] eqn:G; [reflexivity|]. exfalso.
  assert (I1 : In (k, b) (gots (co_tr c))) by (rewrite G; left; reflexivity). apply in_gots in I1. pose proof (got_out _ _ _ _ _ _ R F N I1) as I2. rewrite FF in I2. contradiction.
Qed.

(** ** Steps of one session that nobody else notices *)
Definition only (n : nat) (s s' : wsv) : Prop := ws_net s' = ws_net s /\ ws_insts s' = ws_insts s /\ forall m, m <> n -> nth_error (ws_cons s') m = nth_error (ws_cons s) m.
Lemma only_refl n s : only n s s. Proof. repeat split. Qed.
Lemma only_trans n a b c : only n a b -> only n b c -> only n a c.
Proof. intros (A1 & A2 & A3) (B1 & B2 & B3). split; [congruence|]. split; [congruence|]. intros m N. rewrite (B3 m N). apply A3, N. Qed.
Definition no_take (e : list xev) : Prop := match e with XTake _ _ :: _ => False | _ => True end.
Lemma calm_step s n c o r e : con s n c -> legal o c = true -> modern c = true -> x_step o (co_rpc c) = Some (r, e) -> no_take e -> pfail (x_cli r) = false ->
  exists s', ws_step (WCon n o) s = Some s' /\ only n s s' /\ con s' n (co_set r e c).
Proof.
  intros N LG MO X NT PF. cbn [ws_step]. unfold con in N. rewrite N, LG, MO. cbn [andb]. unfold co_step. rewrite X. exists (with_cons (upd n (co_set r e c) (ws_cons s)) s). split; [|split].
  - assert (NO : ws_note c (co_set r e c) (with_cons (upd n (co_set r e c) (ws_cons s)) s) = Some (with_cons (upd n (co_set r e c) (ws_cons s)) s)).
    { unfold ws_note. assert (FF : failed (co_set r e c) = false) by exact PF. rewrite FF, andb_false_r. reflexivity. }
    destruct e as [|[] e']; try exact NO. contradiction.
  - split; [reflexivity|]. split; [reflexivity|]. intros m M. cbn [ws_cons with_cons]. rewrite nth_upd. destruct (Nat.eqb_spec m n); [contradiction|]. destruct (nth_error (ws_cons s) m); reflexivity.
  - unfold con. cbn [ws_cons with_cons]. rewrite nth_upd, Nat.eqb_refl, N. reflexivity.
Qed.
Definition plain_op (b : bool) (o : xop) : bool :=
  match o with XClient (CConnect true) | XClient CStop | XCall _ | XServer _ => false | XClient _ | XClientByte => true | XServerByte | XLost => b end.
Fixpoint calm (b : bool) (l : list xop) (r : rpc) : Prop :=
  match l with
  | [] => True
  | o :: l' => match x_step o r with Some (r1, e1) => plain_op b o = true /\ pfail (x_cli r1) = false /\ no_take e1 /\ calm b l' r1 | None => False end
  end.
Definition linked (c : wcon) : bool := match co_srv c with Some _ => true | None => false end.
Lemma calm_run l : forall s n c r e, con s n c -> modern c = true -> calm (linked c) l (co_rpc c) -> x_run l (co_rpc c) = Some (r, e) ->
  exists s', ws_run (map (WCon n) l) s = Some s' /\ only n s s' /\ con s' n (co_set r e c).
Proof.
  induction l as [|o l IH]; intros s n c r e N MO CA X; cbn [x_run calm map ws_run] in *.
  - injection X as <- <-. exists s. split; [reflexivity|]. split; [apply only_refl|]. unfold co_set. rewrite app_nil_r. destruct c. exact N.
  - destruct (x_step o (co_rpc c)) as [[r1 e1]|] eqn:X1; [|contradiction]. destruct CA as (PL & PF & NT & CA). destruct (x_run l r1) as [[r2 e2]|] eqn:X2; [|discriminate]. injection X as <- <-.
    destruct (calm_step s n c o r1 e1 N) as (s1 & E1 & O1 & N1); auto.
    rewrite E1. destruct (IH s1 n (co_set r1 e1 c) r2 e2 N1 MO CA X2) as (s2 & E2 & O2 & N2). exists s2. split; [exact E2|]. split; [apply (only_trans _ _ _ _ O1 O2)|].
    unfold co_set in *. cbn [co_proc co_x co_name co_key co_ses co_open co_srv co_tr] in N2. rewrite app_assoc. exact N2.
Qed.
(** The handshake. *)
Definition hs_pre : list xop := XClient (CHsSent true) :: repeat XServerByte 18 ++ repeat XClientByte 16.
Definition hs_state (ns nx : nat) (st : bool) (q : list nat) (reqs : list (list Z)) (sv : server) : rpc :=
  Rpc (Cli ns (PHsSend true) true st nx q false None [] 0 []) reqs (frame (handshake_request v_min v_max)) reader0 SHandshake [] reader0 sv.
Definition hs_mid (ns nx : nat) (st : bool) (q : list nat) (reqs : list (list Z)) (sv : server) (b : list Z) (rd : reader) : rpc :=
  Rpc (Cli ns (PHsRecv true) true st nx q false None [] 0 []) reqs [] reader0 SReading b rd sv.
Definition rd16 : reader := fold_left (fun r b => match push r b with inl r' => r' | inr _ => r end) (firstn 16 (frame (handshake_response v_max))) reader0.
Lemma hs_run1 ns nx st q reqs sv : x_run hs_pre (hs_state ns nx st q reqs sv) = Some (hs_mid ns nx st q reqs sv (skipn 16 (frame (handshake_response v_max))) rd16, []).
Proof. vm_compute. reflexivity. Qed.
Lemma hs_calm1 ns nx st q reqs sv : calm true hs_pre (hs_state ns nx st q reqs sv).
Proof. vm_compute. repeat split. Qed.
Definition hs_end (ns nx : nat) (st : bool) (k : nat) (q : list nat) (reqs : list (list Z)) (sv : server) : rpc :=
  Rpc (Cli ns PConnected true st nx q true (Some (Sending k true)) [] 0 []) reqs (frame (request_msg (nth k reqs []))) reader0 SReading [] reader0 sv.
Lemma push16 : push rd16 1 = inr (handshake_response v_max). Proof. vm_compute. reflexivity. Qed.
Lemma rest16 : skipn 16 (frame (handshake_response v_max)) = [1%Z]. Proof. vm_compute. reflexivity. Qed.
Lemma hs_run2 ns nx st k q reqs sv : x_step XClientByte (hs_mid ns nx st (k :: q) reqs sv [1%Z] rd16) = Some (hs_end ns nx st k q reqs sv, [XCli EvConnected; XCli (EvSend k); XOut k]).
Proof. unfold hs_mid. cbn [x_step x_down x_cli c_phase x_cread]. rewrite push16, hs_accept. reflexivity. Qed.
Lemma x_run_one a b s s1 e1 s2 e2 : x_run a s = Some (s1, e1) -> x_step b s1 = Some (s2, e2) -> x_run (a ++ [b]) s = Some (s2, e1 ++ e2).
Proof. intros A B. apply (x_run_app _ _ _ _ _ _ _ A). cbn [x_run]. rewrite B, app_nil_r. reflexivity. Qed.
Lemma calm_app d a : forall b s s1 e1, x_run a s = Some (s1, e1) -> calm d a s -> calm d b s1 -> calm d (a ++ b) s.
Proof.
  induction a as [|o a IH]; intros b s s1 e1 X C D; cbn [x_run calm app] in *; [injection X as <- _; exact D|].
  destruct (x_step o s) as [[s2 e2]|]; [|contradiction]. destruct (x_run a s2) as [[s3 e3]|] eqn:X2; [|discriminate]. injection X as <- _. destruct C as (C1 & C2 & C3 & C4). repeat (split; [assumption|]). apply (IH _ _ _ _ X2 C4 D).
Qed.
Lemma hs_run ns nx st k q reqs sv : x_run (hs_pre ++ [XClientByte]) (hs_state ns nx st (k :: q) reqs sv) = Some (hs_end ns nx st k q reqs sv, [XCli EvConnected; XCli (EvSend k); XOut k]).
Proof. pose proof (hs_run1 ns nx st (k :: q) reqs sv) as R. rewrite rest16 in R. apply (x_run_one _ _ _ _ _ _ _ R (hs_run2 ns nx st k q reqs sv)). Qed.
Lemma hs_calm ns nx st k q reqs sv : calm true (hs_pre ++ [XClientByte]) (hs_state ns nx st (k :: q) reqs sv).
Proof.
  pose proof (hs_run1 ns nx st (k :: q) reqs sv) as R. rewrite rest16 in R. apply (calm_app _ _ _ _ _ _ R (hs_calm1 _ _ _ _ _ _)). cbn [calm]. rewrite hs_run2. repeat split.
Qed.
(** The posted calls are put into the queue. *)
Lemma post_run ps : forall r, c_posts (x_cli r) = ps -> no_flush ps -> (exists i, c_phase (x_cli r) = PResolve i \/ c_phase (x_cli r) = PConnecting i) ->
  let c := x_cli r in
  calm false (repeat (XClient CPost) (length ps)) r /\
  x_run (repeat (XClient CPost) (length ps)) r = Some (set_cli (set_queue (c_queue c ++ calls_of ps) (set_posts [] c)) r, []).
Proof.
  induction ps as [|h ps IH]; intros r PS NF PH c; cbn [length repeat calm x_run].
  - split; [exact Logic.I|]. cbn [calls_of flat_map]. rewrite app_nil_r. subst c. destruct r as [[] rq u sr ss dn cr sv]. cbn in *. rewrite PS. reflexivity.
  - destruct h as [d|]; [|exfalso; apply (NF HFlush); [left; reflexivity|reflexivity]].
    assert (X : x_step (XClient CPost) r = Some (set_cli (set_queue (c_queue c ++ [d]) (set_posts ps c)) r, [])).
    { cbn [x_step with_data]. unfold client. cbn [c_step]. rewrite PS. destruct PH as (i & [PH|PH]); rewrite PH; reflexivity. }
    rewrite X. assert (PHc : exists i, c_phase c = PResolve i \/ c_phase c = PConnecting i) by exact PH.
    destruct (IH (set_cli (set_queue (c_queue c ++ [d]) (set_posts ps c)) r)) as [I1 I2]; [reflexivity|intros h I1; apply NF; right; exact I1|exact PH|]. split.
    + split; [reflexivity|]. split; [unfold pfail; cbn; destruct PHc as (i & [Q|Q]); rewrite Q; reflexivity|]. split; [exact Logic.I|exact I1].
    + rewrite I2. cbn [app]. f_equal. f_equal. unfold set_cli, set_queue, set_posts. cbn. rewrite <- app_assoc. reflexivity.
Qed.
(** ** The way *)
Lemma run_app l1 : forall l2 s s1, ws_run l1 s = Some s1 -> ws_run (l1 ++ l2) s = ws_run l2 s1.
Proof. induction l1 as [|o l1 IH]; intros l2 s s1 E; cbn [ws_run app] in *; [injection E as <-; reflexivity|]. destruct (ws_step o s); [|discriminate]. apply IH, E. Qed.
Lemma reach_more ops more s s' : wreach ops s -> ws_run more s = Some s' -> wreach (ops ++ more) s'.
Proof. unfold wreach. intros R E. rewrite (run_app _ _ _ _ R). exact E. Qed.
Lemma gentle_map n l : (forall o, In o l -> wgentle (WCon n o) = true) -> forallb wgentle (map (WCon n) l) = true.
Proof. intros H. apply forallb_forall. intros o I1. apply in_map_iff in I1. destruct I1 as (x & <- & I2). apply H, I2. Qed.
Lemma in_repeat {A} (a x : A) k : In x (repeat a k) -> x = a. Proof. apply repeat_spec. Qed.
Lemma way_lemma ops s n c i t : wreach ops s -> con s n c -> co_open c = true -> co_srv c = None -> c_phase (x_cli (co_rpc c)) <> PFailed -> 0 < c_next (x_cli (co_rpc c)) ->
  inst s i t -> wi_up t = true -> reached c t ->
  exists more s' c', forallb wgentle more = true /\ ws_run more s = Some s' /\ only n s s' /\ con s' n c' /\ co_srv c' = Some i /\ awaited 0 (co_rpc c') /\
    co_tr c' = (wi_tr t ++ co_tr c) ++ [XCli EvConnected; XCli (EvSend 0); XOut 0] /\
    c_queue (x_cli (co_rpc c')) = seq 1 (c_next (x_cli (co_rpc c)) - 1) /\ c_posts (x_cli (co_rpc c')) = [].
Proof.
  intros R N OP SV NF NX T UP (MO & P0 & rest & EN). destruct (fresh_all _ _ R n c N SV) as [F1 F2 F3 F4 F5 F6 F7 F8 F9 FA FB FC FD FE _].
  pose proof (b_stop _ (b_all _ _ R) n c N OP) as ST.
  assert (PF : pfail (x_cli (co_rpc c)) = false) by (unfold pfail; destruct (c_phase (x_cli (co_rpc c))); congruence). specialize (FB PF). specialize (FC PF).
  assert (PH : exists j, c_phase (x_cli (co_rpc c)) = PResolve j \/ c_phase (x_cli (co_rpc c)) = PConnecting j) by (destruct (c_phase (x_cli (co_rpc c))); try contradiction; try congruence; eauto).
  destruct (post_run _ (co_rpc c) eq_refl FB PH) as [CA1 X1]. rewrite FC in X1.
  assert (LN : linked c = false) by (unfold linked; rewrite SV; reflexivity). rewrite <- LN in CA1.
  destruct (calm_run _ s n c _ _ N MO CA1 X1) as (s1 & E1 & O1 & N1). clear CA1 X1.
  set (q := seq 0 (c_next (x_cli (co_rpc c)))) in *. set (r1 := set_cli (set_queue q (set_posts [] (x_cli (co_rpc c)))) (co_rpc c)) in *. set (c1 := co_set r1 [] c) in *.
  assert (L2 : exists l2 r2 j, forallb wgentle (map (WCon n) l2) = true /\ calm false l2 r1 /\ x_run l2 r1 = Some (r2, []) /\
    r2 = Rpc (Cli (c_servers (x_cli (co_rpc c))) (PConnecting j) true false (c_next (x_cli (co_rpc c))) q false None [] 0 []) (x_reqs (co_rpc c)) [] reader0 SHandshake [] reader0 (x_server (co_rpc c))).
  { destruct PH as (j & [PH|PH]).
    - exists [XClient (CResolve true)]. eexists. exists j. split; [reflexivity|].
      assert (X : x_step (XClient (CResolve true)) r1 = Some (set_cli (set_sock true (set_phase (PConnecting j) (x_cli r1))) r1, [])).
      { cbn [x_step with_data]. unfold client. cbn [c_step]. subst r1. cbn. rewrite PH. reflexivity. }
      split; [cbn [calm]; rewrite X; repeat split|]. split; [cbn [x_run]; rewrite X; reflexivity|].
      subst r1. unfold set_cli, set_queue, set_posts, set_sock, set_phase. cbn. rewrite F1, F2, F3, F4, F5, F6, F7, F8, F9, ST. reflexivity.
    - exists [], r1, j. split; [reflexivity|]. split; [exact Logic.I|]. split; [reflexivity|]. rewrite PH in FA. destruct FA as [FA|FA]; [|congruence].
      subst r1. unfold set_cli, set_queue, set_posts. cbn. rewrite F1, F2, F3, F4, F5, F6, F7, F8, F9, ST, FA, PH. reflexivity. }
  destruct L2 as (l2 & r2 & j & W2 & CA2 & X2 & R2).
  assert (LN1 : linked c1 = false) by exact LN. rewrite <- LN1 in CA2. destruct (calm_run l2 s1 n c1 r2 [] N1 MO CA2 X2) as (s2 & E2 & O2 & N2). set (c2 := co_set r2 [] c1) in *.
  pose proof (only_trans _ _ _ _ O1 O2) as O12. destruct O12 as (ON & OI & OC).
  assert (T2 : nth_error (ws_insts s2) i = Some t) by (rewrite OI; exact T).
  assert (RE : reaches c2 t = true).
  { unfold reaches. change (co_rpc c2) with r2. rewrite R2. cbn [x_cli c_phase]. change (co_ses c2) with (co_ses c). rewrite EN, UP, eqb_refl. cbn [andb]. unfold port1 in P0 |- *. rewrite Z.eqb_refl. cbn [andb]. apply negb_true_iff, Z.eqb_neq, P0. }
  set (r3 := hs_state (c_servers (x_cli (co_rpc c))) (c_next (x_cli (co_rpc c))) false q (x_reqs (co_rpc c)) (wi_state t)).
  assert (X3 : x_step (XClient (CConnect true)) (co_rpc (co_bind i t c2)) = Some (r3, [])).
  { change (co_rpc (co_bind i t c2)) with (set_server (wi_state t) r2). rewrite R2. reflexivity. }
  set (c3 := co_set r3 [] (co_bind i t c2)).
  assert (E3 : ws_step (WConnect n i) s2 = Some (with_cons (upd n c3 (ws_cons s2)) s2)).
  { cbn [ws_step]. unfold con in N2. rewrite N2, T2. change (co_srv c2) with (co_srv c). rewrite SV, RE. change (modern c2) with (modern c). rewrite MO. cbn [andb]. unfold co_step. rewrite X3. reflexivity. }
  set (s3 := with_cons (upd n c3 (ws_cons s2)) s2) in *.
  assert (N3 : con s3 n c3) by (unfold con; subst s3; cbn [ws_cons with_cons]; rewrite nth_upd, Nat.eqb_refl; unfold con in N2; rewrite N2; reflexivity).
  assert (O3 : only n s2 s3).
  { split; [reflexivity|]. split; [reflexivity|]. intros m M. subst s3. cbn [ws_cons with_cons]. rewrite nth_upd. destruct (Nat.eqb_spec m n); [contradiction|]. destruct (nth_error (ws_cons s2) m); reflexivity. }
  assert (Q : q = 0 :: seq 1 (c_next (x_cli (co_rpc c)) - 1)) by (subst q; destruct (c_next (x_cli (co_rpc c))); [lia|]; cbn [seq]; rewrite Nat.sub_succ, Nat.sub_0_r; reflexivity).
  assert (CA4 : calm (linked c3) (hs_pre ++ [XClientByte]) (co_rpc c3)) by (change (co_rpc c3) with r3; unfold r3; rewrite Q; apply hs_calm).
  assert (X4 : x_run (hs_pre ++ [XClientByte]) (co_rpc c3) = Some (hs_end (c_servers (x_cli (co_rpc c))) (c_next (x_cli (co_rpc c))) false 0 (seq 1 (c_next (x_cli (co_rpc c)) - 1)) (x_reqs (co_rpc c)) (wi_state t), [XCli EvConnected; XCli (EvSend 0); XOut 0])).
  { change (co_rpc c3) with r3. unfold r3. rewrite Q. apply hs_run. }
  destruct (calm_run _ s3 n c3 _ _ N3 MO CA4 X4) as (s4 & E4 & O4 & N4). clear CA4 X4.
  exists (map (WCon n) (repeat (XClient CPost) (length (c_posts (x_cli (co_rpc c))))) ++ map (WCon n) l2 ++ [WConnect n i] ++ map (WCon n) (hs_pre ++ [XClientByte])), s4. eexists.
  split; [|split; [|split; [|split; [exact N4|]]]].
  - rewrite !forallb_app, W2. rewrite (gentle_map n (repeat _ _)) by (intros o I1; apply in_repeat in I1; subst o; reflexivity). rewrite (gentle_map n (hs_pre ++ _)); [reflexivity|].
    intros o I1. apply in_app_iff in I1. destruct I1 as [[I1|I1]|[I1|[]]]; [subst o; reflexivity| |subst o; reflexivity]. apply in_app_iff in I1. destruct I1 as [I1|I1]; apply in_repeat in I1; subst o; reflexivity.
  - rewrite (run_app _ _ _ _ E1), (run_app _ _ _ _ E2). cbn [app ws_run]. rewrite E3. exact E4.
  - apply (only_trans _ _ s2); [split; [exact ON|]; split; [exact OI|exact OC]|]. apply (only_trans _ _ _ _ O3 O4).
  - split; [reflexivity|]. split; [split; [left; reflexivity|]; repeat split; discriminate|]. split; [|split; reflexivity]. subst c3 c2 c1. cbn [co_tr co_set co_bind]. rewrite !app_nil_r. reflexivity.
Qed.

(** ** One after the other *)
Definition neutral (op : mop) : bool := match op with MRequest _ | MEnter _ | MReturn _ _ _ => true | _ => false end.
Lemma book_snoc o x m : neutral x = true -> ld_known (book (o ++ [x]) m) = ld_known (book o m) /\ ld_cb (book (o ++ [x]) m) = ld_cb (book o m).
Proof.
  intros N. unfold book. rewrite fold_left_app. cbn [fold_left]. destruct x; try discriminate; cbn [note]; auto. destruct (ld_known (fold_left (note m) o _)) eqn:K; cbn [andb]; auto. destruct (names m bs); auto.
Qed.
Lemma prepared_snoc o x : prepared o -> neutral x = true -> prepared (o ++ [x]).
Proof.
  intros [C K] N. split.
  - intros ops1 bs ops2 m Q NM KN. destruct ops2 as [|y l] using rev_ind.
    + apply app_inj_tail in Q. destruct Q as [-> _]. apply K, KN.
    + rewrite app_comm_cons, app_assoc in Q. apply app_inj_tail in Q. destruct Q as [Q _]. apply (C ops1 bs l m Q NM KN).
  - intros m. unfold known. destruct (book_snoc o x m N) as [-> ->]. apply K.
Qed.
Lemma prepared_app l : forall o, prepared o -> forallb neutral l = true -> prepared (o ++ l).
Proof.
  induction l as [|x l IH]; intros o P N; [rewrite app_nil_r; exact P|]. cbn [forallb] in N. rewrite andb_true_iff in N. destruct N as [N1 N2]. change (x :: l) with ([x] ++ l). rewrite app_assoc. apply IH; [apply prepared_snoc; assumption|exact N2].
Qed.
Lemma smooth_step o r r' e : smooth o = true -> x_step o r = Some (r', e) -> forallb neutral (server_ops e) = true /\ forall k bs, ~ In (XAsk k bs) e.
Proof.
  intros SM X. destruct (soft o) eqn:SF.
  - destruct (x_soft _ _ _ _ SF X) as (-> & _ & _ & _ & A). split; [reflexivity|]. intros k bs I1. apply A in I1. subst o. discriminate.
  - destruct (x_hard _ _ _ _ SF X) as [(_ & -> & _)|(op & ev & _ & -> & _ & A & [(-> & _)|(bs & rest & _ & -> & _)])]; (split; [|try exact A]); try reflexivity; [intros k bs []|].
    destruct op; try discriminate; reflexivity.
Qed.
Lemma smooth_run l : forall r r' e, forallb smooth l = true -> x_run l r = Some (r', e) -> forallb neutral (server_ops e) = true /\ forall k bs, ~ In (XAsk k bs) e.
Proof.
  induction l as [|o l IH]; intros r r' e SM X; cbn [forallb x_run] in *; [injection X as _ <-; split; [reflexivity|intros k bs []]|].
  rewrite andb_true_iff in SM. destruct SM as [S1 S2]. destruct (x_step o r) as [[r1 e1]|] eqn:X1; [|discriminate]. destruct (x_run l r1) as [[r2 e2]|] eqn:X2; [|discriminate]. injection X as _ <-.
  destruct (smooth_step _ _ _ _ S1 X1) as [A B]. destruct (IH _ _ _ S2 X2) as [C D]. split; [rewrite so_app, forallb_app, A; exact C|]. intros k bs I1. apply in_app_iff in I1. destruct I1 as [I1|I1]; [apply (B _ _ I1)|apply (D _ _ I1)].
Qed.
Lemma kept_trans a b c : kept a b -> kept b c -> kept a c.
Proof. intros (A1 & A2 & A3 & A4) (B1 & B2 & B3 & B4). unfold kept. repeat split; congruence. Qed.
Lemma run_kept more : forall ops s s' i t, wreach ops s -> ws_run more s = Some s' -> inst s i t -> exists t', inst s' i t' /\ kept t t'.
Proof.
  induction more as [|o more IH]; intros ops s s' i t R E T; cbn [ws_run] in E; [injection E as <-; exists t; split; [exact T|apply kept_refl]|].
  destruct (ws_step o s) as [s1|] eqn:E1; [|discriminate]. destruct (goes_step _ _ _ _ (n_all _ _ R) E1) as (_ & _ & G). destruct (G i t T) as (t1 & T1 & K1).
  assert (R1 : wreach (ops ++ [o]) s1) by (apply wreach_snoc; eauto). destruct (IH _ _ _ _ _ R1 E T1) as (t2 & T2 & K2). exists t2. split; [exact T2|apply (kept_trans _ _ _ K1 K2)].
Qed.
Lemma smooth_gentle l : forallb wsmooth l = true -> forallb wgentle l = true.
Proof. intros H. apply forallb_forall. intros o I1. rewrite forallb_forall in H. specialize (H o I1). destruct o as [| |n x| | |]; try discriminate; try exact H. destruct x as [|[]| | | |]; try discriminate; try exact H; try reflexivity. Qed.
Lemma one_lemma ops s n c i t d : wreach ops s -> modest (co_tr c) -> con s n c -> co_srv c = Some i -> inst s i t -> awaited d (co_rpc c) -> prepared (server_ops (co_tr c)) ->
  (forall k bs, In (XAsk k bs) (co_tr c) -> answers_fit t bs) ->
  exists more s' r e bs, forallb wsmooth more = true /\ ws_run more s = Some s' /\ con s' n (co_set r e c) /\ modest (co_tr c ++ e) /\ In (XGot d bs) e /\
    x_cli r = fst (next (set_cur None (x_cli (co_rpc c)))) /\ x_sess r <> SClosed /\ prepared (server_ops (co_tr c ++ e)) /\ forall k b, In (XAsk k b) (co_tr c ++ e) -> In (XAsk k b) (co_tr c).
Proof.
  intros R M N CS T AW PR AF. pose proof (connection_lemma _ _ _ _ R N) as CN. rewrite CS in CN. destruct CN as (t0 & T0 & _ & _ & (xops & X) & _). unfold inst in T, T0. rewrite T in T0. injection T0 as <-.
  assert (AN : answerable (pc_host (wi_cfg t)) (sx_name (wi_srv t)) (sx_id (wi_srv t)) d (co_tr c)).
  { intros req I1. split; [apply PR|]. split; [apply prepared_snoc; [exact PR|reflexivity]|]. apply (AF _ _ I1). }
  destruct (progress_strong _ _ _ _ _ _ _ _ X M AW AN) as (xo & r & e & bs & SM & XR & M' & G & CL & NC). destruct (lift_run xo _ _ _ _ _ _ _ R N CS SM XR) as (more & s' & W & E & N').
  destruct (smooth_run _ _ _ _ SM XR) as [NE NA]. exists more, s', r, e, bs. repeat (split; [assumption|]). split; [rewrite so_app; apply prepared_app; assumption|].
  intros k b I1. apply in_app_iff in I1. destruct I1 as [I1|I1]; [exact I1|]. exfalso. apply (NA _ _ I1).
Qed.
Lemma line_lemma q1 : forall ops s n c i t d q2 k, wreach ops s -> modest (co_tr c) -> con s n c -> co_srv c = Some i -> inst s i t -> awaited d (co_rpc c) ->
  c_queue (x_cli (co_rpc c)) = q1 ++ k :: q2 -> prepared (server_ops (co_tr c)) -> (forall k' bs, In (XAsk k' bs) (co_tr c) -> answers_fit t bs) ->
  exists more s' c' bs, forallb wsmooth more = true /\ ws_run more s = Some s' /\ con s' n c' /\ co_srv c' = Some i /\ In (XGot k bs) (co_tr c').
Proof.
  induction q1 as [|k1 q1 IH]; intros ops s n c i t d q2 k R M N CS T AW QU PR AF;
    destruct (one_lemma _ _ _ _ _ _ _ R M N CS T AW PR AF) as (more & s1 & r & e & bs & W & E & N1 & M1 & _ & CL & NC & PR1 & AS); destruct AW as (_ & PH & SK & _);
    pose proof (reach_more _ _ _ _ R E) as R1; destruct (run_kept _ _ _ _ _ _ R E T) as (t1 & T1 & K1);
    assert (AF1 : forall k' b, In (XAsk k' b) (co_tr (co_set r e c)) -> answers_fit t1 b) by (intros k' b I1; destruct K1 as (_ & _ & K3 & K4); unfold answers_fit; rewrite K3, K4; apply (AF k' b), (AS _ _ I1)).
  - assert (AW1 : awaited k (co_rpc (co_set r e c))).
    { unfold awaited. cbn [co_rpc co_set]. rewrite CL. unfold next. cbn. rewrite QU. cbn. rewrite SK. auto. }
    destruct (one_lemma _ _ _ (co_set r e c) _ _ _ R1 M1 N1 CS T1 AW1 PR1 AF1) as (more2 & s2 & r2 & e2 & bs2 & W2 & E2 & N2 & _ & G2 & _).
    exists (more ++ more2), s2. eexists. exists bs2. split; [rewrite forallb_app, W; exact W2|]. split; [rewrite (run_app _ _ _ _ E); exact E2|]. split; [exact N2|]. split; [exact CS|]. cbn [co_tr co_set]. apply in_app_iff. right. exact G2.
  - assert (AW1 : awaited k1 (co_rpc (co_set r e c))).
    { unfold awaited. cbn [co_rpc co_set]. rewrite CL. unfold next. cbn. rewrite QU. cbn. rewrite SK. auto. }
    assert (QU1 : c_queue (x_cli (co_rpc (co_set r e c))) = q1 ++ k :: q2) by (cbn [co_rpc co_set]; rewrite CL; unfold next; cbn; rewrite QU; reflexivity).
    destruct (IH _ _ _ (co_set r e c) _ _ _ _ _ R1 M1 N1 CS T1 AW1 QU1 PR1 AF1) as (more2 & s2 & c2 & b2 & W2 & E2 & N2 & S2 & G2).
    exists (more ++ more2), s2, c2, b2. split; [rewrite forallb_app, W; exact W2|]. split; [rewrite (run_app _ _ _ _ E); exact E2|]. auto.
Qed.
Lemma in_line_lemma ops s n c i t d k : wreach ops s -> wfits s -> con s n c -> co_srv c = Some i -> inst s i t -> awaited d (co_rpc c) -> In k (c_queue (x_cli (co_rpc c))) ->
  prepared (wi_ops t) -> (forall k' bs, In (XAsk k' bs) (co_tr c) -> answers_fit t bs) ->
  exists more s' c' bs, forallb wsmooth more = true /\ ws_run more s = Some s' /\ con s' n c' /\ In (XGot k bs) (co_tr c').
Proof.
  intros R [_ F] N CS T AW IQ PR AF. apply in_split in IQ. destruct IQ as (q1 & q2 & QU). pose proof (connection_lemma _ _ _ _ R N) as CN. rewrite CS in CN. destruct CN as (t0 & T0 & _ & _ & _ & SO & _). unfold inst in T, T0. rewrite T in T0. injection T0 as <-.
  destruct (line_lemma q1 ops s n c i t d q2 k R (F n c N) N CS T AW QU) as (more & s' & c' & bs & A1 & A2 & A3 & _ & A4); [rewrite SO; exact PR|exact AF|]. exists more, s', c', bs. auto.
Qed.
Lemma wi_tr_plain ops s i t : wreach ops s -> inst s i t -> forall e, In e (wi_tr t) -> (exists op, e = XDo op) \/ exists ev, e = XSrv ev.
Proof.
  intros R T e I1. pose proof (it_ev _ (r_inst _ _ _ (r_all _ _ R) i t T)) as F. rewrite Forall_forall in F. specialize (F e I1). destruct e; try contradiction; eauto.
Qed.
Lemma from_start_lemma ops s n c i t k bs : wreach ops s -> wfits s -> con s n c -> co_open c = true -> co_srv c = None -> c_phase (x_cli (co_rpc c)) <> PFailed -> In (XAsk k bs) (co_tr c) ->
  inst s i t -> wi_up t = true -> leads_to c t -> prepared (wi_ops t) -> (forall k' b, In (XAsk k' b) (co_tr c) -> answers_fit t b) ->
  exists more s' c' r, forallb wgentle more = true /\ ws_run more s = Some s' /\ con s' n c' /\ co_srv c' = Some i /\ In (XGot k r) (co_tr c').
Proof.
  intros R W N OP SV NF I1 T UP LT PR AF. pose proof (fresh_all _ _ R n c N SV) as FR. pose proof (f_asks _ _ FR _ _ I1) as KN.
  assert (RE : reached c t) by (destruct LT as (L1 & L2 & L3); split; [unfold modern; apply negb_true_iff, Z.eqb_neq, L1|]; split; assumption).
  destruct (way_lemma _ _ _ _ _ _ R N OP SV NF ltac:(lia) T UP RE) as (more & s1 & c1 & G1 & E1 & (ON & OI & OC) & N1 & S1 & A1 & T1 & Q1 & _).
  pose proof (reach_more _ _ _ _ R E1) as R1. assert (IT : inst s1 i t) by (unfold inst; rewrite OI; exact T).
  pose proof (connection_lemma _ _ _ _ R N) as CN. rewrite SV in CN. destruct CN as (_ & SO & _).
  pose proof (connection_lemma _ _ _ _ R1 N1) as CN1. rewrite S1 in CN1. destruct CN1 as (t0 & IT0 & _ & _ & _ & SO1 & _). unfold inst in IT, IT0. rewrite IT in IT0. injection IT0 as <-.
  assert (NW : forall e, In e (wi_tr t) -> (exists op, e = XDo op) \/ exists ev, e = XSrv ev) by (intros e; apply (wi_tr_plain _ _ _ _ R T)).
  assert (AS : forall k' b, In (XAsk k' b) (co_tr c1) -> In (XAsk k' b) (co_tr c)).
  { intros k' b I2. rewrite T1 in I2. apply in_app_iff in I2. destruct I2 as [I2|[I2|[I2|[I2|[]]]]]; try discriminate. apply in_app_iff in I2. destruct I2 as [I2|I2]; [|exact I2]. destruct (NW _ I2) as [(op & Q)|(ev & Q)]; discriminate. }
  assert (M1 : modest (co_tr c1)).
  { destruct (proj2 W n c N) as [Ma Mb]. split; [intros k' b I2; apply (Ma k'), AS, I2|]. intros k' b I2. rewrite T1 in I2. apply in_app_iff in I2. destruct I2 as [I2|[I2|[I2|[I2|[]]]]]; try discriminate. apply in_app_iff in I2. destruct I2 as [I2|I2]; [|apply (Mb _ _ I2)]. destruct (NW _ I2) as [(op & Q)|(ev & Q)]; discriminate. }
  assert (PR1 : prepared (server_ops (co_tr c1))) by (rewrite SO1; exact PR).
  assert (AF1 : forall k' b, In (XAsk k' b) (co_tr c1) -> answers_fit t b) by (intros k' b I2; apply (AF k'), AS, I2).
  assert (FIN : exists more2 s2 c2 r, forallb wsmooth more2 = true /\ ws_run more2 s1 = Some s2 /\ con s2 n c2 /\ co_srv c2 = Some i /\ In (XGot k r) (co_tr c2)).
  { destruct k as [|k].
    - destruct (one_lemma _ _ _ _ _ _ _ R1 M1 N1 S1 IT A1 PR1 AF1) as (more2 & s2 & r2 & e2 & bs2 & W2 & E2 & N2 & _ & G2 & _). exists more2, s2. eexists. exists bs2. split; [exact W2|]. split; [exact E2|]. split; [exact N2|]. split; [exact S1|]. cbn [co_tr co_set]. apply in_app_iff. right. exact G2.
    - assert (IQ : In (S k) (c_queue (x_cli (co_rpc c1)))) by (rewrite Q1; apply in_seq; lia). apply in_split in IQ. destruct IQ as (q1 & q2 & QU). apply (line_lemma q1 _ _ _ _ _ _ _ q2 _ R1 M1 N1 S1 IT A1 QU PR1 AF1). }
  destruct FIN as (more2 & s2 & c2 & r & W2 & E2 & N2 & S2 & G2). exists (more ++ more2), s2, c2, r. split; [rewrite forallb_app, G1; apply smooth_gentle, W2|]. split; [rewrite (run_app _ _ _ _ E1); exact E2|]. split; [exact N2|].
  split; [exact S2|exact G2].
Qed.
