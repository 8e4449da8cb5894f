(** Proofs about services as a whole. *)
From Coq Require Import Lia Bool.
From Verif Require Import Base Sample ExpMapModel PbModel PbSpec SerModel SerSpec SrvModel SrvSpec CliModel CliSpec FrmModel RpcModel RpcSpec RpcProofs SdsModel WsvModel WsvSpec.
From Verif Require SdsSpec SdsProofs.

(** ** Lists *)
Lemma nth_mapi {A B} (f : nat -> A -> B) l : forall k n, nth_error (mapi f k l) n = option_map (f (k + n)) (nth_error l n).
Proof.
  induction l as [|a l IH]; intros k n; cbn; [destruct n; reflexivity|]. destruct n as [|n]; cbn; [rewrite Nat.add_0_r; reflexivity|].
  rewrite IH. replace (S k + n) with (k + S n) by lia. reflexivity.
Qed.
Lemma nth_upd {A} n (v : A) l j : nth_error (upd n v l) j = if Nat.eqb j n then match nth_error l j with Some _ => Some v | None => None end else nth_error l j.
Proof. unfold upd. rewrite nth_mapi. cbn. destruct (Nat.eqb j n); destruct (nth_error l j); reflexivity. Qed.
Lemma nth_snoc {A} (l : list A) a n b : nth_error (l ++ [a]) n = Some b -> nth_error l n = Some b \/ (n = length l /\ b = a).
Proof.
  destruct (Nat.ltb_spec n (length l)).
  - rewrite nth_error_app1 by assumption. auto.
  - rewrite nth_error_app2 by assumption. intros E. right. destruct (n - length l) as [|k] eqn:K; cbn in E; [|destruct k; discriminate]. injection E as <-. split; [lia|reflexivity].
Qed.
Lemma nth_old {A} (l l' : list A) n b : nth_error l n = Some b -> nth_error (l ++ l') n = Some b.
Proof. intros E. rewrite nth_error_app1; [exact E|]. apply nth_error_Some. congruence. Qed.
Lemma nth_new {A} (l l' : list A) n b : nth_error (l ++ l') n = Some b -> nth_error l n = Some b \/ (length l <= n /\ In b l').
Proof.
  destruct (Nat.ltb_spec n (length l)).
  - rewrite nth_error_app1 by assumption. auto.
  - rewrite nth_error_app2 by assumption. intros E. right. split; [assumption|]. eapply nth_error_In, E.
Qed.

(** ** One step on one connection *)
Definition soft (o : xop) : bool := match o with XCall _ | XClient _ | XClientByte | XLost => true | _ => false end.
Definition clientside (o : xop) : bool := match o with XCall _ | XClient _ | XClientByte => true | _ => false end.
Lemma client_quiet op s s' e : client op s = Some (s', e) -> server_ops e = [] /\ server_events e = [] /\ takes e = [] /\ x_server s' = x_server s /\ (forall k bs, ~ In (XAsk k bs) e).
Proof.
  unfold client. destruct (c_step op (x_cli s)) as [[c ev]|]; [|discriminate]. unfold write_request.
  destruct (cli_events ev) as (_ & A1 & A2 & _ & A3 & _).
  destruct (started ev _) as [d|]; intros E; injection E as <- <-; rewrite ?so_app, ?se_app, ?takes_app, A1, A2, A3; cbn; repeat split; auto;
    intros k bs I1; apply in_app_iff in I1; destruct I1 as [I1|I1]; try (apply in_map_iff in I1; destruct I1 as (? & X & _); discriminate); cbn in I1; intuition discriminate.
Qed.
Lemma x_soft o r r' e : soft o = true -> x_step o r = Some (r', e) -> server_ops e = [] /\ server_events e = [] /\ takes e = [] /\ x_server r' = x_server r /\
  forall k bs, In (XAsk k bs) e -> o = XCall bs.
Proof.
  destruct o as [bs|op| | |op|]; try discriminate; intros _; cbn [x_step].
  - cbn [c_step]. destruct (c_stopped (x_cli r)); intros E; injection E as <- <-; cbn; repeat split; auto; intros k bs' I1; [intuition discriminate|].
    destruct I1 as [I1|[I1|[]]]; [discriminate|]. injection I1 as _ <-. reflexivity.
  - destruct (with_data op); [discriminate|]. destruct (client op r) as [[s1 o1]|] eqn:C; [|discriminate]. destruct (client_quiet _ _ _ _ C) as (A1 & A2 & A3 & A4 & A5).
    assert (X : forall q, match op, c_phase (x_cli s1) with CConnect true, PHsSend true => Some (write_up (handshake_request v_min v_max) s1, o1) | _, _ => Some (s1, o1) end = Some q ->
      snd q = o1 /\ x_server (fst q) = x_server s1).
    { intros q E. destruct op as [| | |[]|[]|[]|[]|[]|[]|? []|]; try (injection E as <-; auto). destruct (c_phase (x_cli s1)) as [| |[]| | |]; injection E as <-; auto. }
    intros E. destruct (X _ E) as [X1 X2]. cbn in X1, X2. subst o1. rewrite X2. repeat split; auto. intros k bs I1. destruct (A5 _ _ I1).
  - destruct (x_down r) as [|b bs]; [discriminate|].
    assert (H0 : forall op s1 e1, client op (read_down bs reader0 r) = Some (s1, e1) -> server_ops e1 = [] /\ server_events e1 = [] /\ takes e1 = [] /\ x_server s1 = x_server r /\ (forall k bs, ~ In (XAsk k bs) e1))
      by (intros op s1 e1 C; apply client_quiet in C; exact C).
    assert (Q : forall op s1 e1, client op (read_down bs reader0 r) = Some (s1, e1) -> server_ops e1 = [] /\ server_events e1 = [] /\ takes e1 = [] /\ x_server s1 = x_server r /\ (forall k bs, In (XAsk k bs) e1 -> XClientByte = XCall bs))
      by (intros op s1 e1 C; destruct (H0 _ _ _ C) as (A1 & A2 & A3 & A4 & A5); repeat split; auto; intros k bs' I1; destruct (A5 _ _ I1)).
    assert (P : forall r1, Some (read_down bs r1 r, []) = Some (r', e) -> server_ops e = [] /\ server_events e = [] /\ takes e = [] /\ x_server r' = x_server r /\ (forall k bs, In (XAsk k bs) e -> XClientByte = XCall bs))
      by (intros r1 E; injection E as <- <-; repeat split; intros k bs' []).
    assert (RC : forall c, match push (x_cread r) b with
              | inl r0 => Some (read_down bs r0 r, [])
              | inr m => if Z.eqb (fm_type m) mt_service_response then match client (CReceived RGood) (read_down bs reader0 r) with Some (s', o) => Some (s', XGot c (fm_pay m) :: o) | None => None end
                  else client (CReceived RWrongType) (read_down bs reader0 r) end = Some (r', e) ->
       server_ops e = [] /\ server_events e = [] /\ takes e = [] /\ x_server r' = x_server r /\ (forall k bs, In (XAsk k bs) e -> XClientByte = XCall bs)).
    { intros c. destruct (push (x_cread r) b) as [r1|m]; [apply P|]. destruct (Z.eqb _ _); [|apply Q].
      destruct (client (CReceived RGood) _) as [[s1 o1]|] eqn:C; [|discriminate]. intros E; injection E as <- <-. destruct (H0 _ _ _ C) as (A1 & A2 & A3 & A4 & A5).
      repeat split; auto. intros k bs' [I1|I1]; [discriminate|]. destruct (A5 _ _ I1). }
    destruct (c_phase (x_cli r)) as [| | |[]| |]; try (destruct (c_cur (x_cli r)) as [[d []|d []]|]; try discriminate; apply RC).
    destruct (push (x_cread r) b) as [r1|m]; [apply P|]. apply Q.
  - destruct (x_sess r); try discriminate; intros E; injection E as <- <-; repeat split; intros k1 bs [].
Qed.
Lemma reply_quiet ev s s' o : reply ev s = (s', o) -> server_ops o = [] /\ server_events o = [] /\ takes o = [] /\ x_server s' = x_server s /\ forall k bs, ~ In (XAsk k bs) o.
Proof.
  unfold reply. intros E.
  assert (N : (s, []) = (s', o) -> server_ops o = [] /\ server_events o = [] /\ takes o = [] /\ x_server s' = x_server s /\ forall k bs, ~ In (XAsk k bs) o) by (intros X; injection X as <- <-; repeat split; intros k bs []).
  destruct (x_sess s) as [| |k0|]; auto. destruct ev as [|[| |k1 b1| |] [|]]; auto. destruct (Nat.eqb k1 k0); auto. injection E as <- <-. repeat split. intros k bs [X|[]]; discriminate.
Qed.
Lemma serve_eff op r r' e : serve op r = Some (r', e) -> exists ev, m_step op (x_server r) = Some (x_server r', ev) /\ server_ops e = [op] /\ server_events e = ev /\ takes e = [] /\
  (forall k bs, ~ In (XAsk k bs) e).
Proof.
  unfold serve. destruct (m_step op (x_server r)) as [[v ev]|] eqn:M; [|discriminate]. destruct (reply ev (set_server v r)) as [s1 o1] eqn:R. intros E; injection E as <- <-.
  destruct (reply_quiet _ _ _ _ R) as (A1 & A2 & A3 & A4 & A5). exists ev. rewrite A4. split; [reflexivity|]. destruct (srv_events ev) as (_ & B1 & B2 & _ & B3 & _).
  change (XDo op :: map XSrv ev ++ o1) with ([XDo op] ++ (map XSrv ev ++ o1)). rewrite !so_app, !se_app, !takes_app, A1, A2, A3, B1, B2, B3, app_nil_r.
  split; [reflexivity|]. split; [cbn; apply app_nil_r|]. split; [reflexivity|]. intros k bs [X|I1]; [discriminate|].
  change (In (XAsk k bs) (map XSrv ev ++ o1)) in I1. apply in_app_iff in I1. destruct I1 as [I1|I1]; [apply in_map_iff in I1; destruct I1 as (? & X & _); discriminate|exact (A5 _ _ I1)].
Qed.
Lemma x_hard o r r' e : soft o = false -> x_step o r = Some (r', e) ->
  (o = XServerByte /\ e = [] /\ x_server r' = x_server r) \/
  exists op ev, m_step op (x_server r) = Some (x_server r', ev) /\ server_ops e = [op] /\ server_events e = ev /\ (forall k bs, ~ In (XAsk k bs) e) /\
    ((o = XServer op /\ takes e = [] /\ forall k bs rest, e <> XTake k bs :: rest) \/
     exists bs rest, o = XServerByte /\ op = MRequest bs /\ e = XTake (vr_next (x_server r)) bs :: rest /\ takes rest = []).
Proof.
  destruct o as [bs|op| | |op|]; try discriminate; intros _; cbn [x_step].
  - destruct (x_up r) as [|b bs]; [discriminate|]. destruct (x_sess r); try discriminate; destruct (push (x_sread r) b) as [r1|m]; try (intros E; injection E as <- <-; left; auto).
    + destruct (server_choice _ _ m); intros E; injection E as <- <-; left; auto.
    + destruct (Z.eqb (fm_type m) mt_service_request); [|intros E; injection E as <- <-; left; auto].
      destruct (serve (MRequest (fm_pay m)) _) as [[s1 o1]|] eqn:S1; [|discriminate]. intros E; injection E as <- <-. right.
      destruct (serve_eff _ _ _ _ S1) as (ev & A1 & A2 & A3 & A4 & A5). exists (MRequest (fm_pay m)), ev. split; [exact A1|]. split; [exact A2|]. split; [exact A3|].
      split; [intros k b1 [X|I1]; [discriminate|exact (A5 _ _ I1)]|]. right. exists (fm_pay m), o1. auto.
  - intros E. right. destruct (serve_eff _ _ _ _ E) as (ev & A1 & A2 & A3 & A4 & A5). exists op, ev. split; [exact A1|]. split; [exact A2|]. split; [exact A3|]. split; [exact A5|].
    left. split; [reflexivity|]. split; [exact A4|]. intros k bs rest ->. cbn in A4. discriminate.
Qed.
(** The client's side does not look at the server. *)
Definition sv (v : server) (p : rpc * list xev) : rpc * list xev := (set_server v (fst p), snd p).
Lemma client_sv v op r : client op (set_server v r) = option_map (sv v) (client op r).
Proof.
  unfold client. cbn [x_cli set_server]. destruct (c_step op (x_cli r)) as [[c ev]|]; [|reflexivity]. unfold write_request. cbn [x_cli set_cli set_server].
  destruct (started ev c) as [d|]; reflexivity.
Qed.
Lemma x_sv v o r : clientside o = true -> x_step o (set_server v r) = option_map (sv v) (x_step o r).
Proof.
  destruct o as [bs|op| | |op|]; try discriminate; intros _; cbn [x_step].
  - cbn [x_cli set_server c_step]. destruct (c_stopped (x_cli r)); reflexivity.
  - destruct (with_data op); [reflexivity|]. rewrite client_sv. destruct (client op r) as [[s1 o1]|]; [|reflexivity]. cbn [option_map sv fst snd].
    cbn [x_cli set_server]. destruct op as [| | |[]|[]|[]|[]|[]|[]|? []|]; try reflexivity. destruct (c_phase (x_cli s1)) as [| |[]| | |]; reflexivity.
  - cbn [x_down set_server x_cli x_cread]. destruct (x_down r) as [|b bs]; [reflexivity|].
    assert (RD : forall bs r1, read_down bs r1 (set_server v r) = set_server v (read_down bs r1 r)) by reflexivity. rewrite !RD.
    assert (RC : forall c, match push (x_cread r) b with
              | inl r0 => Some (set_server v (read_down bs r0 r), [])
              | inr m => if Z.eqb (fm_type m) mt_service_response then match client (CReceived RGood) (set_server v (read_down bs reader0 r)) with Some (s', o) => Some (s', XGot c (fm_pay m) :: o) | None => None end
                  else client (CReceived RWrongType) (set_server v (read_down bs reader0 r)) end =
              option_map (sv v) match push (x_cread r) b with
              | inl r0 => Some (read_down bs r0 r, [])
              | inr m => if Z.eqb (fm_type m) mt_service_response then match client (CReceived RGood) (read_down bs reader0 r) with Some (s', o) => Some (s', XGot c (fm_pay m) :: o) | None => None end
                  else client (CReceived RWrongType) (read_down bs reader0 r) end).
    { intros c. destruct (push (x_cread r) b) as [r1|m]; [reflexivity|]. destruct (Z.eqb _ _); [|apply client_sv]. rewrite client_sv. destruct (client _ _) as [[s1 o1]|]; reflexivity. }
    destruct (c_phase (x_cli r)) as [| | |[]| |]; try (destruct (c_cur (x_cli r)) as [[d []|d []]|]; try reflexivity; apply RC).
    destruct (push (x_cread r) b) as [r1|m]; [reflexivity|]. apply client_sv.
Qed.
Lemma set_server_same r : set_server (x_server r) r = r. Proof. destruct r; reflexivity. Qed.
Lemma set_server_twice a b r : set_server a (set_server b r) = set_server a r. Proof. reflexivity. Qed.

(** ** The connections and the servers *)
Definition srv_ev (e : xev) : Prop := match e with XDo _ | XSrv _ => True | _ => False end.
Definition x_of (t : winst) (n : nat) : rpc := x_init n (pc_host (wi_cfg t)) (sx_name (wi_srv t)) (sx_id (wi_srv t)).
Record IT (t : winst) : Prop := {
  it_run : forall n, exists xops, x_run xops (x_of t n) = Some (set_server (wi_state t) (x_of t n), wi_tr t);
  it_ev : Forall srv_ev (wi_tr t);
  it_next : vr_next (wi_state t) = requests (wi_ops t) }.
Definition nends (c : wcon) : nat := length (ss_ends (co_ses c)).
Definition UC (c : wcon) : Prop := exists xops, (forall v, x_run xops (set_server v (x_init (nends c) [] [] [])) = Some (set_server v (co_rpc c), co_tr c)) /\
  server_ops (co_tr c) = [] /\ server_events (co_tr c) = [] /\ takes (co_tr c) = [].
Definition BC (t : winst) (c : wcon) : Prop := x_server (co_rpc c) = wi_state t /\
  (exists xops, x_run xops (x_of t (nends c)) = Some (co_rpc c, co_tr c)) /\
  server_ops (co_tr c) = wi_ops t /\ server_events (co_tr c) = wi_evs t.
Definition asked_by (ops : list wop) (c : wcon) : Prop := forall k bs, In (XAsk k bs) (co_tr c) -> exists m req, In (WCall (co_proc c) (co_x c) m req) ops /\ m <> [] /\ bs = call_bytes m req.
Record INVR (ops : list wop) (il : list winst) (cl : list wcon) : Prop := {
  r_inst : forall i t, nth_error il i = Some t -> IT t;
  r_con : forall n c, nth_error cl n = Some c -> match co_srv c with None => UC c | Some i => exists t, nth_error il i = Some t /\ BC t c end;
  r_ask : forall n c, nth_error cl n = Some c -> asked_by ops c;
  r_low : forall n c i t q bs, nth_error cl n = Some c -> co_srv c = Some i -> nth_error il i = Some t -> In (XTake q bs) (co_tr c) -> q < requests (wi_ops t);
  r_from : forall i t ops1 bs ops2, nth_error il i = Some t -> wi_ops t = ops1 ++ MRequest bs :: ops2 ->
    (exists n c, nth_error cl n = Some c /\ co_srv c = Some i /\ In (XTake (requests ops1) bs) (co_tr c)) \/ In (WOld i bs) ops;
  r_one : forall n1 n2 c1 c2 i q b1 b2, nth_error cl n1 = Some c1 -> nth_error cl n2 = Some c2 -> co_srv c1 = Some i -> co_srv c2 = Some i ->
    In (XTake q b1) (co_tr c1) -> In (XTake q b2) (co_tr c2) -> n1 = n2 }.
Lemma inv_r0 : INVR [] [] [].
Proof. constructor; intros; try (destruct n; discriminate); try (destruct i; discriminate). destruct n1; discriminate. Qed.
Lemma r_more ops o il cl : INVR ops il cl -> INVR (ops ++ [o]) il cl.
Proof.
  intros [A B C D E F]. constructor; auto.
  - intros n c N k bs I1. destruct (C n c N k bs I1) as (m & req & I2 & X). exists m, req. split; [apply in_app_iff; auto|exact X].
  - intros i t ops1 bs ops2 N W. destruct (E i t ops1 bs ops2 N W) as [X|X]; [auto|right; apply in_app_iff; auto].
Qed.
Lemma takes_in tr q bs : In (XTake q bs) tr <-> In (q, bs) (takes tr).
Proof. symmetry. apply in_takes. Qed.
Lemma x_run_snoc ops o s s1 e1 s2 e2 : x_run ops s = Some (s1, e1) -> x_step o s1 = Some (s2, e2) -> x_run (ops ++ [o]) s = Some (s2, e1 ++ e2).
Proof. intros A B. apply (x_run_app ops [o] s s1 e1 s2 e2 A). cbn. rewrite B, app_nil_r. reflexivity. Qed.

(** Steps of the sessions and of their connections by themselves. *)
Definition ident (c c' : wcon) : Prop := co_proc c' = co_proc c /\ co_x c' = co_x c /\ co_name c' = co_name c /\ co_key c' = co_key c /\ co_ses c' = co_ses c /\ co_srv c' = co_srv c.
Definition softstep (o : xop) (r r' : rpc) (e : list xev) : Prop := x_step o r = Some (r', e) /\
  server_ops e = [] /\ server_events e = [] /\ takes e = [] /\ x_server r' = x_server r /\ forall k bs, In (XAsk k bs) e -> o = XCall bs.
Definition softly (ops : list wop) (c c' : wcon) : Prop := ident c c' /\
  ((co_rpc c' = co_rpc c /\ co_tr c' = co_tr c) \/
   exists o e, (clientside o = true \/ co_srv c <> None) /\ softstep o (co_rpc c) (co_rpc c') e /\ co_tr c' = co_tr c ++ e /\
     forall bs, o = XCall bs -> exists m req, In (WCall (co_proc c) (co_x c) m req) ops /\ m <> [] /\ bs = call_bytes m req).
Definition same_wi (t t' : winst) : Prop := wi_proc t' = wi_proc t /\ wi_x t' = wi_x t /\ wi_cfg t' = wi_cfg t /\ wi_srv t' = wi_srv t /\ wi_state t' = wi_state t /\ wi_tr t' = wi_tr t.
Definition sim_il (il il' : list winst) : Prop := forall i, match nth_error il i, nth_error il' i with Some t, Some t' => same_wi t t' | None, None => True | _, _ => False end.
Definition sim_cl (R : nat -> wcon -> wcon -> Prop) (cl cl' : list wcon) : Prop := forall n, match nth_error cl n, nth_error cl' n with Some c, Some c' => R n c c' | None, None => True | _, _ => False end.
Lemma it_same t t' : same_wi t t' -> IT t -> IT t'.
Proof.
  intros (_ & _ & A & B & C & D) [X Y Z]. constructor; [intros n; unfold x_of; rewrite A, B, C, D; apply X|rewrite D; exact Y|]. unfold wi_ops. rewrite C, D. exact Z.
Qed.
Lemma bc_same t t' c : same_wi t t' -> BC t c -> BC t' c.
Proof. intros (_ & _ & A & B & C & D). unfold BC, x_of, wi_ops, wi_evs. rewrite A, B, C, D. auto. Qed.
Lemma ops_same t t' : same_wi t t' -> wi_ops t' = wi_ops t.
Proof. intros (_ & _ & _ & _ & _ & D). unfold wi_ops. rewrite D. reflexivity. Qed.
Lemma sim_il_refl il : sim_il il il. Proof. intros i. destruct (nth_error il i); [repeat split|exact Logic.I]. Qed.
Lemma sim_il_back il il' i t' : sim_il il il' -> nth_error il' i = Some t' -> exists t, nth_error il i = Some t /\ same_wi t t'.
Proof. intros S1 N. specialize (S1 i). rewrite N in S1. destruct (nth_error il i) as [t|]; [eauto|contradiction]. Qed.
Lemma sim_il_fwd il il' i t : sim_il il il' -> nth_error il i = Some t -> exists t', nth_error il' i = Some t' /\ same_wi t t'.
Proof. intros S1 N. specialize (S1 i). rewrite N in S1. destruct (nth_error il' i) as [t'|]; [eauto|contradiction]. Qed.
Lemma sim_cl_back R cl cl' n c' : sim_cl R cl cl' -> nth_error cl' n = Some c' -> exists c, nth_error cl n = Some c /\ R n c c'.
Proof. intros S1 N. specialize (S1 n). rewrite N in S1. destruct (nth_error cl n) as [c|]; [eauto|contradiction]. Qed.
Lemma sim_cl_fwd R cl cl' n c : sim_cl R cl cl' -> nth_error cl n = Some c -> exists c', nth_error cl' n = Some c' /\ R n c c'.
Proof. intros S1 N. specialize (S1 n). rewrite N in S1. destruct (nth_error cl' n) as [c'|]; [eauto|contradiction]. Qed.
Lemma soft_takes ops c c' : softly ops c c' -> takes (co_tr c') = takes (co_tr c).
Proof. intros [_ [[_ ->]|(o & e & _ & (_ & _ & _ & A & _) & -> & _)]]; [reflexivity|]. rewrite takes_app, A, app_nil_r. reflexivity. Qed.
Lemma soft_con ops c c' t : softly ops c c' -> (co_srv c = None -> UC c -> UC c') /\ (BC t c -> BC t c').
Proof.
  intros [(_ & _ & _ & _ & I1 & I2) [[X1 X2]|(o & e & L & (X & A1 & A2 & A3 & A4 & _) & T & _)]]; unfold UC, BC, nends; rewrite I1.
  - rewrite X1, X2. auto.
  - rewrite T, so_app, se_app, takes_app, A1, A2, A3, !app_nil_r, A4. split.
    + intros N (xops & R & B1 & B2 & B3). exists (xops ++ [o]). split; [|auto]. intros v. apply (x_run_snoc _ _ _ _ _ _ _ (R v)). rewrite x_sv.
      * rewrite X. reflexivity.
      * destruct L as [L|L]; [exact L|congruence].
    + intros (B1 & (xops & R) & B2 & B3). split; [exact B1|]. split; [|auto]. exists (xops ++ [o]). apply (x_run_snoc _ _ _ _ _ _ _ R X).
Qed.
Lemma r_soft ops il il' cl cl' : INVR ops il cl -> sim_il il il' -> sim_cl (fun _ => softly ops) cl cl' -> INVR ops il' cl'.
Proof.
  intros [A B C D E F] SI SC. constructor.
  - intros i t' N. destruct (sim_il_back _ _ _ _ SI N) as (t & N0 & S0). apply (it_same t t' S0), (A i t N0).
  - intros n c' N. destruct (sim_cl_back _ _ _ _ _ SC N) as (c & N0 & S0). specialize (B n c N0). pose proof S0 as ((_ & _ & _ & _ & _ & I2) & _). rewrite I2.
    destruct (co_srv c) as [i|] eqn:CS.
    + destruct B as (t & N1 & BT). destruct (sim_il_fwd _ _ _ _ SI N1) as (t' & N2 & S2). exists t'. split; [exact N2|]. apply (bc_same t t' _ S2), (soft_con ops c c' t S0), BT.
    + apply (proj1 (soft_con ops c c' (WInst 0 0 SdsSpec.d_ca (DSrv [] [] service0) true (server0 [] [] []) []) S0) CS B).
  - intros n c' N k bs I1. destruct (sim_cl_back _ _ _ _ _ SC N) as (c & N0 & S0). destruct S0 as ((-> & -> & _) & S0). destruct S0 as [[_ X]|(o & e & _ & (_ & _ & _ & _ & _ & Q) & T & W)].
    + rewrite X in I1. apply (C n c N0 k bs I1).
    + rewrite T in I1. apply in_app_iff in I1. destruct I1 as [I1|I1]; [apply (C n c N0 k bs I1)|]. apply W, (Q _ _ I1).
  - intros n c' i t' q bs N CS N1 I1. destruct (sim_cl_back _ _ _ _ _ SC N) as (c & N0 & S0). destruct (sim_il_back _ _ _ _ SI N1) as (t & N2 & S2).
    rewrite (ops_same _ _ S2). apply (D n c i t q bs N0); auto; [destruct S0 as ((_ & _ & _ & _ & _ & I2) & _); congruence|]. apply takes_in. rewrite <- (soft_takes _ _ _ S0). apply takes_in, I1.
  - intros i t' ops1 bs ops2 N W. destruct (sim_il_back _ _ _ _ SI N) as (t & N2 & S2). rewrite (ops_same _ _ S2) in W.
    destruct (E i t ops1 bs ops2 N2 W) as [(n & c & N0 & CS & I1)|X]; [|auto]. left. destruct (sim_cl_fwd _ _ _ _ _ SC N0) as (c' & N1 & S0). exists n, c'. split; [exact N1|].
    split; [destruct S0 as ((_ & _ & _ & _ & _ & I2) & _); congruence|]. apply takes_in. rewrite (soft_takes _ _ _ S0). apply takes_in, I1.
  - intros n1 n2 c1' c2' i q b1 b2 N1 N2 CS1 CS2 I1 I2. destruct (sim_cl_back _ _ _ _ _ SC N1) as (c1 & M1 & S1). destruct (sim_cl_back _ _ _ _ _ SC N2) as (c2 & M2 & S2).
    apply (F n1 n2 c1 c2 i q b1 b2 M1 M2); [destruct S1 as ((_ & _ & _ & _ & _ & X) & _); congruence|destruct S2 as ((_ & _ & _ & _ & _ & X) & _); congruence| |];
      apply takes_in; [rewrite <- (soft_takes _ _ _ S1)|rewrite <- (soft_takes _ _ _ S2)]; apply takes_in; assumption.
Qed.
(** New servers and new sessions. *)
Lemma r_new_inst ops il cl p x c e : INVR ops il cl -> INVR ops (il ++ [wi_new p x c e]) cl.
Proof.
  intros [A B C D E F]. assert (LT : forall n cc i, nth_error cl n = Some cc -> co_srv cc = Some i -> exists t, nth_error il i = Some t).
  { intros n cc i N CS. specialize (B n cc N). rewrite CS in B. destruct B as (t & T & _). eauto. }
  constructor; auto.
  - intros i t N. apply nth_snoc in N. destruct N as [N|[_ ->]]; [apply (A i t N)|]. constructor; [|constructor|reflexivity]. intros n. exists []. reflexivity.
  - intros n cc N. specialize (B n cc N). destruct (co_srv cc) as [i|]; [|exact B]. destruct B as (t & T & X). exists t. split; [apply nth_old, T|exact X].
  - intros n cc i t q bs N CS N1 I1. destruct (LT n cc i N CS) as (t0 & T0). pose proof (nth_old _ [wi_new p x c e] _ _ T0) as X. rewrite X in N1. injection N1 as <-. eauto.
  - intros i t ops1 bs ops2 N W. apply nth_snoc in N. destruct N as [N|[_ ->]]; [apply (E i t ops1 bs ops2 N W)|]. cbn in W. destruct ops1; discriminate.
Qed.
Lemma uc_new p x name k z : UC (co_new p x name k z).
Proof. exists []. split; [reflexivity|]. repeat split. Qed.
Lemma r_new_cons ops il cl l : INVR ops il cl -> (forall c, In c l -> exists p x name k z, c = co_new p x name k z) -> INVR ops il (cl ++ l).
Proof.
  intros [A B C D E F] NEW. constructor; auto.
  - intros n c N. apply nth_new in N. destruct N as [N|[_ I1]]; [apply (B n c N)|]. destruct (NEW c I1) as (p & x & name & k & z & ->). apply uc_new.
  - intros n c N k bs I1. apply nth_new in N. destruct N as [N|[_ I2]]; [apply (C n c N k bs I1)|]. destruct (NEW c I2) as (p & x & name & k0 & z & ->). destruct I1.
  - intros n c i t q bs N CS N1 I1. apply nth_new in N. destruct N as [N|[_ I2]]; [eauto|]. destruct (NEW c I2) as (p & x & name & k0 & z & ->). destruct I1.
  - intros i t ops1 bs ops2 N W. destruct (E i t ops1 bs ops2 N W) as [(n & c & N0 & X)|X]; [|auto]. left. exists n, c. split; [apply nth_old, N0|exact X].
  - intros n1 n2 c1 c2 i q b1 b2 N1 N2 CS1 CS2 I1 I2. apply nth_new in N1. destruct N1 as [N1|[_ J1]]; [|destruct (NEW c1 J1) as (p & x & name & k0 & z & ->); destruct I1].
    apply nth_new in N2. destruct N2 as [N2|[_ J2]]; [|destruct (NEW c2 J2) as (p & x & name & k0 & z & ->); destruct I2]. eauto.
Qed.
(** A server performs a step. *)
Lemma next_count op s v ev : m_step op s = Some (v, ev) -> vr_next v = vr_next s + requests [op].
Proof.
  unfold m_step. destruct (vr_dead s); [discriminate|]. destruct op as [m rt rd st sd|m rt st cb|m|bs|k|k resp ret|].
  - intros E; injection E as <- <-; cbn; lia.
  - intros E; injection E as <- <-; cbn; lia.
  - destruct (amem m (vr_methods s)); intros E; injection E as <- <-; cbn; lia.
  - destruct (de_request bs) as [q| |]; [destruct (aget _ (vr_methods s))| |]; intros E; injection E as <- <-; cbn; lia.
  - destruct (aget k (vr_jobs s)) as [[e r []]|]; try discriminate. destruct (mt_cb e); intros E; injection E as <- <-; cbn; lia.
  - destruct (aget k (vr_jobs s)) as [[e r []]|]; try discriminate. intros E; injection E as <- <-; cbn; lia.
  - intros E; injection E as <- <-; cbn; lia.
Qed.
Lemma requests_app a b : requests (a ++ b) = requests a + requests b.
Proof. unfold requests. rewrite filter_app, app_length. reflexivity. Qed.
Definition does (t : winst) (op : mop) (v : server) (ev : list mev) : winst :=
  WInst (wi_proc t) (wi_x t) (wi_cfg t) (wi_srv t) (wi_up t) v (wi_tr t ++ XDo op :: map XSrv ev).
Lemma does_ops t op v ev : wi_ops (does t op v ev) = wi_ops t ++ [op] /\ wi_evs (does t op v ev) = wi_evs t ++ ev.
Proof.
  unfold wi_ops, wi_evs, does. cbn [wi_tr]. change (XDo op :: map XSrv ev) with ([XDo op] ++ map XSrv ev). destruct (srv_events ev) as (_ & B1 & B2 & _).
  rewrite !so_app, !se_app, B1, B2, app_nil_r. split; reflexivity.
Qed.
Lemma it_does t op v ev : IT t -> m_step op (wi_state t) = Some (v, ev) -> IT (does t op v ev).
Proof.
  intros [A B C] M. constructor.
  - intros n. destruct (A n) as (xops & R). exists (xops ++ [XServer op]). change (x_of (does t op v ev) n) with (x_of t n).
    replace (wi_tr (does t op v ev)) with (wi_tr t ++ XDo op :: map XSrv ev ++ []) by (rewrite app_nil_r; reflexivity).
    apply (x_run_snoc _ _ _ _ _ _ _ R). cbn [x_step]. unfold serve. cbn [x_server set_server]. rewrite M. reflexivity.
  - cbn [wi_tr does]. apply Forall_app. split; [exact B|]. constructor; [exact Logic.I|]. apply Forall_forall. intros e I1. apply in_map_iff in I1. destruct I1 as (y & <- & _). exact Logic.I.
  - rewrite (proj1 (does_ops t op v ev)), requests_app, <- C. apply (next_count _ _ _ _ M).
Qed.
(** What the connections of the server see of it. *)
Definition hardly (skip : option nat) (i : nat) (op : mop) (n : nat) (c c' : wcon) : Prop :=
  if on_srv i c then ident c c' /\ exists o e, x_step o (co_rpc c) = Some (co_rpc c', e) /\ co_tr c' = co_tr c ++ e /\
    (o = XServer op \/ (o = XServerByte /\ skip = Some n /\ exists k bs rest, op = MRequest bs /\ e = XTake k bs :: rest))
  else c' = c.
Lemma on_srv_iff i c : on_srv i c = true <-> co_srv c = Some i.
Proof. unfold on_srv. destruct (co_srv c) as [j|]; [|split; discriminate]. rewrite Nat.eqb_eq. split; congruence. Qed.
Lemma hard_con skip i op n c c' t v ev : hardly skip i op n c c' -> co_srv c = Some i -> BC t c -> m_step op (wi_state t) = Some (v, ev) ->
  BC (does t op v ev) c' /\ co_proc c' = co_proc c /\ co_x c' = co_x c /\
  (forall k bs, In (XAsk k bs) (co_tr c') -> In (XAsk k bs) (co_tr c)) /\
  (takes (co_tr c') = takes (co_tr c) \/ exists bs, skip = Some n /\ op = MRequest bs /\ takes (co_tr c') = takes (co_tr c) ++ [(vr_next (wi_state t), bs)]).
Proof.
  intros H CS (B1 & (xops & R) & B2 & B3) M. unfold hardly in H. rewrite (proj2 (on_srv_iff i c) CS) in H. destruct H as ((J1 & J2 & _ & _ & J3 & _) & o & e & X & T & K).
  assert (SF : soft o = false) by (destruct K as [->|(-> & _)]; reflexivity).
  destruct (x_hard _ _ _ _ SF X) as [(O1 & E0 & _)|(op' & ev' & M' & E1 & E2 & E3 & E4)].
  { destruct K as [K|(_ & _ & k & bs & rest & _ & K)]; [congruence|]. rewrite K in E0. discriminate. }
  assert (OP : op' = op).
  { destruct E4 as [(E4 & _)|(bs & rest & E4 & -> & E5 & _)].
    - destruct K as [K|(K & _)]; congruence.
    - destruct K as [K|(_ & _ & k & bs' & rest' & -> & K)]; [congruence|]. rewrite K in E5. injection E5 as _ -> _. reflexivity. }
  subst op'. rewrite B1, M in M'. injection M' as M1 M2. destruct (does_ops t op v ev) as [D1 D2].
  split; [|split; [exact J1|split; [exact J2|split]]].
  - split; [symmetry; exact M1|]. split; [exists (xops ++ [o]); unfold nends; rewrite J3; change (x_of (does t op v ev)) with (x_of t); rewrite T; apply (x_run_snoc _ _ _ _ _ _ _ R X)|].
    rewrite T, so_app, se_app, E1, E2, B2, B3, D1, D2, M2. split; reflexivity.
  - intros k bs I1. rewrite T in I1. apply in_app_iff in I1. destruct I1 as [I1|I1]; [exact I1|destruct (E3 _ _ I1)].
  - rewrite T, takes_app. destruct E4 as [(_ & E4 & _)|(bs & rest & O1 & -> & E5 & E6)]; [left; rewrite E4, app_nil_r; reflexivity|]. right. exists bs.
    destruct K as [K|(_ & K & _)]; [congruence|]. split; [exact K|]. split; [reflexivity|]. rewrite E5. change (XTake (vr_next (x_server (co_rpc c))) bs :: rest) with ([XTake (vr_next (x_server (co_rpc c))) bs] ++ rest).
    rewrite takes_app, E6, B1. reflexivity.
Qed.
Lemma last_eq {A} (a : list A) x b y c : a ++ [x] = b ++ y :: c -> (c = [] /\ a = b /\ x = y) \/ exists c', c = c' ++ [x] /\ a = b ++ y :: c'.
Proof.
  intros E. destruct (exists_last (l := y :: c)) as (c0 & z & Z); [discriminate|]. rewrite Z, app_assoc in E. apply app_inj_tail in E. destruct E as [E ->].
  destruct c0 as [|y0 c0]; cbn in Z; injection Z as -> Z; [left; rewrite app_nil_r in E; auto|]. right. exists c0. split; [exact Z|exact E].
Qed.
Lemma r_perform ops il cl cl' skip i t op v ev : INVR ops il cl -> nth_error il i = Some t -> m_step op (wi_state t) = Some (v, ev) ->
  sim_cl (hardly skip i op) cl cl' ->
  (forall bs, op = MRequest bs -> In (WOld i bs) ops \/ exists n c c' k, nth_error cl n = Some c /\ nth_error cl' n = Some c' /\ co_srv c = Some i /\ In (XTake k bs) (co_tr c') /\ ~ In (XTake k bs) (co_tr c)) ->
  INVR ops (upd i (does t op v ev) il) cl'.
Proof.
  intros [A B C D E F] NT M SC SRC. set (t' := does t op v ev). destruct (does_ops t op v ev) as [DO DE]. fold t' in DO, DE.
  assert (IL : forall j u, nth_error (upd i t' il) j = Some u -> (j = i /\ u = t') \/ (j <> i /\ nth_error il j = Some u)).
  { intros j u N. rewrite nth_upd in N. destruct (Nat.eqb_spec j i) as [J|J]; [left|right; auto]. subst j. rewrite NT in N. injection N as <-. auto. }
  assert (ILI : nth_error (upd i t' il) i = Some t') by (rewrite nth_upd, Nat.eqb_refl, NT; reflexivity).
  assert (ILJ : forall j, j <> i -> nth_error (upd i t' il) j = nth_error il j) by (intros j J; rewrite nth_upd; destruct (Nat.eqb_spec j i); [contradiction|reflexivity]).
  assert (CL : forall n c', nth_error cl' n = Some c' -> exists c, nth_error cl n = Some c /\
    ((co_srv c = Some i /\ co_srv c' = Some i /\ BC t' c' /\ co_proc c' = co_proc c /\ co_x c' = co_x c /\ (forall k bs, In (XAsk k bs) (co_tr c') -> In (XAsk k bs) (co_tr c)) /\
      (takes (co_tr c') = takes (co_tr c) \/ exists bs, skip = Some n /\ op = MRequest bs /\ takes (co_tr c') = takes (co_tr c) ++ [(requests (wi_ops t), bs)]))
     \/ (co_srv c <> Some i /\ c' = c))).
  { intros n c' N. destruct (sim_cl_back _ _ _ _ _ SC N) as (c & N0 & H). exists c. split; [exact N0|]. destruct (on_srv i c) eqn:O.
    - left. apply on_srv_iff in O. specialize (B n c N0). rewrite O in B. destruct B as (t0 & T0 & BT). rewrite NT in T0. injection T0 as <-.
      destruct (hard_con skip i op n c c' t v ev H O BT M) as (X1 & X2 & X3 & X4 & X5). split; [exact O|]. split; [|split; [exact X1|split; [exact X2|split; [exact X3|split; [exact X4|]]]]].
      + unfold hardly in H. rewrite (proj2 (on_srv_iff i c) O) in H. destruct H as ((_ & _ & _ & _ & _ & J) & _). congruence.
      + rewrite <- (it_next _ (A i t NT)). exact X5.
    - right. unfold hardly in H. rewrite O in H. split; [|exact H]. intros X. apply on_srv_iff in X. congruence. }
  constructor.
  - intros j u N. destruct (IL j u N) as [[-> ->]|[_ N0]]; [apply it_does; [apply (A i t NT)|exact M]|apply (A j u N0)].
  - intros n c' N. destruct (CL n c' N) as (c & N0 & [(O & O' & BT & _)|(O & ->)]).
    + rewrite O'. exists t'. auto.
    + specialize (B n c N0). destruct (co_srv c) as [j|]; [|exact B]. destruct B as (u & U & BU). exists u. split; [|exact BU]. rewrite ILJ by congruence. exact U.
  - intros n c' N k bs I1. destruct (CL n c' N) as (c & N0 & [(_ & _ & _ & -> & -> & Q & _)|(_ & ->)]); [apply (C n c N0 k bs), Q, I1|apply (C n c N0 k bs I1)].
  - intros n c' j u q bs N CS NJ I1. destruct (CL n c' N) as (c & N0 & [(O & O' & _ & _ & _ & _ & Q)|(O & ->)]).
    + rewrite O' in CS. injection CS as <-. rewrite ILI in NJ. injection NJ as <-. rewrite DO, requests_app. apply takes_in in I1. destruct Q as [Q|(bs' & _ & -> & Q)]; rewrite Q in I1.
      * apply takes_in in I1. specialize (D n c i t q bs N0 O NT I1). lia.
      * apply in_app_iff in I1. cbn. destruct I1 as [I1|[I1|[]]]; [|injection I1 as <- _; lia]. apply takes_in in I1. specialize (D n c i t q bs N0 O NT I1). lia.
    + rewrite ILJ in NJ by congruence. apply (D n c j u q bs N0 CS NJ I1).
  - intros j u ops1 bs ops2 NJ W. destruct (IL j u NJ) as [[-> ->]|[J N0]].
    + rewrite DO in W. destruct (last_eq _ _ _ _ _ W) as [(-> & E1 & E2)|(ops2' & -> & W')].
      * destruct (SRC bs E2) as [S1|(n & c & c' & k & N1 & N2 & CS & I1 & I2)]; [right; exact S1|]. left. exists n, c'. split; [exact N2|].
        destruct (CL n c' N2) as (c0 & N3 & [(_ & O' & _ & _ & _ & _ & Q)|(O & X)]).
        -- split; [exact O'|]. rewrite N1 in N3. injection N3 as <-. destruct Q as [Q|(bs' & _ & OP & Q)]; [exfalso; apply I2, takes_in; rewrite <- Q; apply takes_in, I1|].
           apply takes_in in I1. rewrite Q in I1. apply in_app_iff in I1. destruct I1 as [I1|[I1|[]]]; [exfalso; apply I2, takes_in, I1|]. injection I1 as I1 I3.
           apply takes_in. rewrite Q, <- E1, I3. apply in_app_iff. right. left. reflexivity.
        -- exfalso. congruence.
      * destruct (E i t ops1 bs ops2' NT W') as [(n & c & N0 & CS & I1)|X]; [|right; exact X]. left. destruct (sim_cl_fwd _ _ _ _ _ SC N0) as (c' & N1 & _). exists n, c'. split; [exact N1|].
        destruct (CL n c' N1) as (c0 & N2 & [(_ & O' & _ & _ & _ & _ & Q)|(O & X)]); rewrite N0 in N2; injection N2 as <-.
        -- split; [exact O'|]. apply takes_in. apply takes_in in I1. destruct Q as [Q|(bs' & _ & _ & Q)]; rewrite Q; [exact I1|apply in_app_iff; left; exact I1].
        -- subst c'. auto.
    + destruct (E j u ops1 bs ops2 N0 W) as [(n & c & N1 & CS & I1)|X]; [|right; exact X]. left. destruct (sim_cl_fwd _ _ _ _ _ SC N1) as (c' & N2 & _). exists n, c'. split; [exact N2|].
      destruct (CL n c' N2) as (c0 & N3 & [(O & _)|(O & X)]); rewrite N1 in N3; injection N3 as <-; [congruence|]. subst c'. auto.
  - intros n1 n2 c1' c2' j q b1 b2 N1 N2 CS1 CS2 I1 I2. destruct (CL n1 c1' N1) as (c1 & M1 & H1). destruct (CL n2 c2' N2) as (c2 & M2 & H2).
    destruct H1 as [(O1 & O1' & _ & _ & _ & _ & Q1)|(O1 & ->)].
    + rewrite O1' in CS1. injection CS1 as <-. destruct H2 as [(O2 & O2' & _ & _ & _ & _ & Q2)|(O2 & ->)]; [|congruence].
      assert (LOW : forall n c qq bb, nth_error cl n = Some c -> co_srv c = Some i -> In (qq, bb) (takes (co_tr c)) -> qq < requests (wi_ops t)) by (intros n c qq bb X1 X2 X3; apply takes_in in X3; eapply D; eauto).
      apply takes_in in I1. apply takes_in in I2. destruct Q1 as [Q1|(d1 & K1 & P1 & Q1)]; destruct Q2 as [Q2|(d2 & K2 & P2 & Q2)]; rewrite Q1 in I1; rewrite Q2 in I2.
      * apply (F n1 n2 c1 c2 i q b1 b2 M1 M2 O1 O2); apply takes_in; assumption.
      * apply in_app_iff in I2. destruct I2 as [I2|[I2|[]]]; [apply (F n1 n2 c1 c2 i q b1 b2 M1 M2 O1 O2); apply takes_in; assumption|].
        injection I2 as <- _. specialize (LOW n1 c1 _ _ M1 O1 I1). lia.
      * apply in_app_iff in I1. destruct I1 as [I1|[I1|[]]]; [apply (F n1 n2 c1 c2 i q b1 b2 M1 M2 O1 O2); apply takes_in; assumption|].
        injection I1 as <- _. specialize (LOW n2 c2 _ _ M2 O2 I2). lia.
      * congruence.
    + destruct H2 as [(O2 & O2' & _)|(O2 & ->)]; [congruence|]. apply (F n1 n2 c1 c2 j q b1 b2 M1 M2 CS1 CS2 I1 I2).
Qed.
(** A session is connected. *)
Lemma r_bind ops il cl n i t c : INVR ops il cl -> nth_error cl n = Some c -> nth_error il i = Some t -> co_srv c = None -> INVR ops il (upd n (co_bind i t c) cl).
Proof.
  intros [A B C D E F] NC NT U0. pose proof (B n c NC) as UCc. rewrite U0 in UCc. destruct UCc as (xops & R & U1 & U2 & U3). destruct (A i t NT) as [T1 T2 T3].
  assert (TK : takes (wi_tr t) = [] /\ forall k bs, ~ In (XAsk k bs) (wi_tr t)).
  { revert T2. clear. induction (wi_tr t) as [|e l IH]; intros F1; [split; [reflexivity|intros k bs []]|]. inversion_clear F1 as [|? ? G1 G2]. destruct (IH G2) as [IH1 IH2].
    split; [destruct e; try contradiction; exact IH1|]. intros k bs [X|I1]; [subst e; exact G1|exact (IH2 _ _ I1)]. }
  destruct TK as [TK TA].
  assert (CL : forall m c', nth_error (upd n (co_bind i t c) cl) m = Some c' -> (m = n /\ c' = co_bind i t c) \/ (m <> n /\ nth_error cl m = Some c')).
  { intros m c' N. rewrite nth_upd in N. destruct (Nat.eqb_spec m n) as [J|J]; [left|right; auto]. subst m. rewrite NC in N. injection N as <-. auto. }
  assert (CB : takes (co_tr (co_bind i t c)) = []) by (cbn [co_tr co_bind]; rewrite takes_app, TK, U3; reflexivity).
  constructor; auto.
  - intros m c' N. destruct (CL m c' N) as [[-> ->]|[_ N0]]; [|apply (B m c' N0)]. cbn [co_srv co_bind]. exists t. split; [exact NT|]. split; [reflexivity|].
    split; [|cbn [co_tr co_bind]; rewrite so_app, se_app, U1, U2, !app_nil_r; split; reflexivity]. destruct (T1 (nends c)) as (yops & Y). exists (yops ++ xops).
    unfold nends. cbn [co_ses co_rpc co_tr co_bind]. apply (x_run_app yops xops _ _ _ _ _ Y). change (set_server (wi_state t) (x_of t (length (ss_ends (co_ses c))))) with (set_server (wi_state t) (x_init (nends c) [] [] [])). apply R.
  - intros m c' N k bs I1. destruct (CL m c' N) as [[-> ->]|[_ N0]]; [|apply (C m c' N0 k bs I1)]. cbn [co_tr co_bind] in I1. apply in_app_iff in I1.
    destruct I1 as [I1|I1]; [destruct (TA _ _ I1)|]. apply (C n c NC k bs I1).
  - intros m c' j u q bs N CS NJ I1. destruct (CL m c' N) as [[-> ->]|[_ N0]]; [apply takes_in in I1; rewrite CB in I1; destruct I1|eauto].
  - intros j u ops1 bs ops2 NJ W. destruct (E j u ops1 bs ops2 NJ W) as [(m & c' & N0 & CS & I1)|X]; [|auto]. left. exists m, c'. split; [|auto]. rewrite nth_upd.
    destruct (Nat.eqb_spec m n) as [J|J]; [subst m; congruence|exact N0].
  - intros n1 n2 c1 c2 j q b1 b2 N1 N2 CS1 CS2 I1 I2. destruct (CL _ _ N1) as [[-> ->]|[_ M1]]; [apply takes_in in I1; rewrite CB in I1; destruct I1|].
    destruct (CL _ _ N2) as [[-> ->]|[_ M2]]; [apply takes_in in I2; rewrite CB in I2; destruct I2|]. eauto.
Qed.

(** ** All steps *)
Lemma ident_set r e c : ident c (co_set r e c). Proof. repeat split. Qed.
Lemma ident_refl c : ident c c. Proof. repeat split. Qed.
Lemma soft_refl ops c : softly ops c c. Proof. split; [apply ident_refl|left; split; reflexivity]. Qed.
Lemma softly_do ops o c : soft o = true -> (o = XLost -> co_srv c <> None) -> (forall bs, o = XCall bs -> exists m req, In (WCall (co_proc c) (co_x c) m req) ops /\ m <> [] /\ bs = call_bytes m req) ->
  softly ops c (co_do o c).
Proof.
  intros S1 L W. unfold co_do, co_step. destruct (x_step o (co_rpc c)) as [[r e]|] eqn:X; [|apply soft_refl]. split; [apply ident_set|]. right. exists o, e.
  split; [destruct o; try (left; reflexivity); try discriminate; right; apply L; reflexivity|]. split; [split; [exact X|apply (x_soft _ _ _ _ S1 X)]|]. split; [reflexivity|exact W].
Qed.
Lemma softly_close ops c c' : softly ops c c' -> softly ops c (co_close c').
Proof. intros H. exact H. Qed.
Lemma made_new n p x d c : In c (made n p x d) -> exists p x name k z, c = co_new p x name k z.
Proof. unfold made. intros I1. apply in_flat_map in I1. destruct I1 as ([k z] & _ & I1). destruct (had n p x (fst (k, z))); [destruct I1|]. destruct I1 as [<-|[]]. do 5 eexists. reflexivity. Qed.
Lemma opened_new o n n' c : In c (opened o n n') -> exists p x name k z, c = co_new p x name k z.
Proof.
  destruct o as [|p o]; [intros []|]. unfold opened. destruct (aget p (dn_procs n')) as [q|]; [|intros []]. intros I1. apply in_flat_map in I1. destruct I1 as ([x d] & _ & I1).
  apply made_new in I1. exact I1.
Qed.
Lemma disc_shape o s s' : ws_disc o s = Some s' -> exists n, dn_step o (ws_net s) = Some n /\ s' = Wsv n (ws_hist s ++ [o]) (ws_insts s) (ws_cons s ++ opened o (ws_net s) n).
Proof. unfold ws_disc. destruct (dn_step o (ws_net s)) as [n|]; [|discriminate]. intros E; injection E as <-. eauto. Qed.
Definition INVW (ops : list wop) (s : wsv) : Prop := INVR ops (ws_insts s) (ws_cons s).
Lemma r_disc ops o s s' : INVW ops s -> ws_disc o s = Some s' -> INVW ops s'.
Proof. intros I1 E. destruct (disc_shape _ _ _ E) as (n & _ & ->). unfold INVW. cbn. apply r_new_cons; [exact I1|]. intros c. apply opened_new. Qed.
Lemma r_note ops c c' s s' : INVW ops s -> ws_note c c' s = Some s' -> INVW ops s'.
Proof. unfold ws_note. intros I1. destruct (_ && _)%bool; [apply r_disc, I1|]. intros E; injection E as <-. exact I1. Qed.
Lemma sim_map (R : wcon -> wcon -> Prop) f cl : (forall n c, nth_error cl n = Some c -> R c (f c)) -> sim_cl (fun _ => R) cl (map f cl).
Proof. intros H n. rewrite nth_error_map. destruct (nth_error cl n) as [c|] eqn:N; cbn; [eapply H, N|exact Logic.I]. Qed.
Lemma sim_upd (R : wcon -> wcon -> Prop) n c c' cl : nth_error cl n = Some c -> R c c' -> (forall d, R d d) -> sim_cl (fun _ => R) cl (upd n c' cl).
Proof.
  intros N H RR m. rewrite nth_upd. destruct (nth_error cl m) as [d|] eqn:M; destruct (Nat.eqb_spec m n) as [J|J]; auto. subst m. rewrite N in M. injection M as <-. exact H.
Qed.
Lemma sim_down p x il : sim_il il (map (fun t => if is_srv p x t then wi_down t else t) il).
Proof. intros i. rewrite nth_error_map. destruct (nth_error il i) as [t|]; cbn; [|exact Logic.I]. destruct (is_srv p x t); repeat split. Qed.
Lemma r_end ops p x s : INVW ops s -> INVW ops (ws_end p x s).
Proof.
  intros I1. unfold INVW, ws_end. cbn [ws_insts ws_cons]. apply (r_soft ops (ws_insts s) _ (ws_cons s) _ I1 (sim_down p x _)). apply sim_map. intros n c N.
  destruct (srv_ends p x (ws_insts s) c) eqn:S1; [|apply soft_refl]. apply softly_do; [reflexivity| |discriminate]. intros _ X. unfold srv_ends in S1. rewrite X in S1. discriminate.
Qed.
Lemma r_go ops p x s : INVW ops s -> INVW ops (ws_go p x s).
Proof.
  intros I1. unfold INVW, ws_go. cbn [ws_insts ws_cons with_cons]. apply (r_soft ops (ws_insts s) _ (ws_cons s) _ I1 (sim_il_refl _)). apply sim_map. intros n c N.
  destruct (is_con p x c); [|apply soft_refl]. apply softly_close, softly_do; [reflexivity|discriminate|discriminate].
Qed.
Lemma is_con_iff p x c : is_con p x c = true <-> co_open c = true /\ co_proc c = p /\ co_x c = x.
Proof. unfold is_con. rewrite !andb_true_iff, !Nat.eqb_eq. tauto. Qed.
Lemma r_ask_all ops p x m req l s : INVW ops s -> In (WCall p x m req) ops -> m <> [] -> INVW ops (ws_ask p x l (call_bytes m req) s).
Proof.
  intros I1 W N0. unfold INVW, ws_ask. cbn [ws_insts ws_cons with_cons]. apply (r_soft ops (ws_insts s) _ (ws_cons s) _ I1 (sim_il_refl _)). apply sim_map. intros n c N.
  destruct (is_target p x l c) eqn:T; [|apply soft_refl]. apply softly_do; [reflexivity|discriminate|]. intros bs E; injection E as <-. exists m, req.
  unfold is_target in T. rewrite !andb_true_iff in T. destruct T as [[T _] _]. apply is_con_iff in T. destruct T as (_ & -> & ->). auto.
Qed.
(** The server's step is possible on all its connections. *)
Lemma srv_all op c t v ev : BC t c -> m_step op (wi_state t) = Some (v, ev) -> exists r e, x_step (XServer op) (co_rpc c) = Some (r, e) /\ co_do (XServer op) c = co_set r e c.
Proof.
  intros (B1 & _) M. cbn [x_step]. unfold co_do, co_step. cbn [x_step]. unfold serve. rewrite B1, M. destruct (reply ev (set_server v (co_rpc c))) as [r o]. do 2 eexists. split; reflexivity.
Qed.
Lemma r_do ops i op s s' : INVW ops s -> ws_perform None i op s = Some s' -> (forall bs, op = MRequest bs -> In (WOld i bs) ops) -> INVW ops s'.
Proof.
  intros I1 E W. unfold ws_perform in E. destruct (nth_error (ws_insts s) i) as [t|] eqn:NT; [|discriminate]. destruct (m_step op (wi_state t)) as [[v ev]|] eqn:M; [|discriminate].
  injection E as <-. unfold INVW. cbn. apply (r_perform ops _ (ws_cons s) _ None i t op v ev I1 NT M).
  - intros n. rewrite nth_mapi. destruct (nth_error (ws_cons s) n) as [c|] eqn:NC; cbn; [|exact Logic.I]. rewrite andb_true_r. unfold hardly. destruct (on_srv i c) eqn:O; [|reflexivity].
    apply on_srv_iff in O. pose proof (r_con _ _ _ I1 n c NC) as B. rewrite O in B. destruct B as (t0 & T0 & B). rewrite NT in T0. injection T0 as <-.
    destruct (srv_all op c t v ev B M) as (r & e & X & ->). split; [apply ident_set|]. exists (XServer op), e. auto.
  - intros bs X. left. apply W, X.
Qed.
Lemma r_wcon ops n o c c' e s s' : INVW ops s -> nth_error (ws_cons s) n = Some c -> legal o c = true -> co_step o c = Some (c', e) ->
  match e, co_srv c with
  | XTake _ bs :: _, Some i => match ws_perform (Some n) i (MRequest bs) (with_cons (upd n c' (ws_cons s)) s) with Some s2 => ws_note c c' s2 | None => None end
  | _, _ => ws_note c c' (with_cons (upd n c' (ws_cons s)) s)
  end = Some s' -> INVW ops s'.
Proof.
  intros I1 NC LG ST. unfold co_step in ST. destruct (x_step o (co_rpc c)) as [[r e0]|] eqn:X; [|discriminate]. injection ST as <- <-. rename e0 into e.
  set (c' := co_set r e c).
  assert (OLD : softstep o (co_rpc c) r e -> clientside o = true \/ co_srv c <> None -> INVW ops (with_cons (upd n c' (ws_cons s)) s)).
  { intros SS CL. unfold INVW. cbn. apply (r_soft ops (ws_insts s) _ (ws_cons s) _ I1 (sim_il_refl _)). apply (sim_upd _ n c c' _ NC); [|apply soft_refl].
    split; [apply ident_set|]. right. exists o, e. split; [exact CL|]. split; [exact SS|]. split; [reflexivity|]. intros bs ->. discriminate. }
  destruct (soft o) eqn:SF.
  - pose proof (x_soft _ _ _ _ SF X) as Q. destruct Q as (Q1 & Q2 & Q3 & Q4 & Q5).
    assert (CL : clientside o = true \/ co_srv c <> None) by (destruct o; try (left; reflexivity); try discriminate; right; cbn in LG; destruct (co_srv c); discriminate).
    specialize (OLD (conj X (conj Q1 (conj Q2 (conj Q3 (conj Q4 Q5))))) CL).
    destruct e as [|[] e]; try (apply r_note, OLD). cbn in Q3. discriminate.
  - assert (BD : exists i, co_srv c = Some i) by (destruct o; try discriminate; cbn in LG; destruct (co_srv c); [eauto|discriminate]). destruct BD as (i & CS).
    destruct (x_hard _ _ _ _ SF X) as [(-> & -> & XS)|(op & ev & M & E1 & E2 & E3 & [(-> & _)|(bs & rest & -> & -> & -> & E5)])].
    + apply r_note, OLD; [|right; congruence]. split; [exact X|]. repeat split; auto. intros k bs [].
    + discriminate.
    + rewrite CS. unfold ws_perform. cbn [ws_insts with_cons]. pose proof (r_con _ _ _ I1 n c NC) as B. rewrite CS in B. destruct B as (t & NT & B). rewrite NT.
      destruct (m_step (MRequest bs) (wi_state t)) as [[v ev']|] eqn:M'; [|discriminate]. cbn [ws_net ws_hist ws_cons with_cons]. apply r_note. unfold INVW. cbn [ws_insts ws_cons].
      assert (MAPI : forall m d, nth_error (ws_cons s) m = Some d -> nth_error (mapi (fun j d => if (on_srv i d && negb (skips (Some n) j))%bool then co_do (XServer (MRequest bs)) d else d) 0 (upd n c' (ws_cons s))) m =
        Some (if Nat.eqb m n then c' else if on_srv i d then co_do (XServer (MRequest bs)) d else d)).
      { intros m d N. rewrite nth_mapi, nth_upd, N. cbn [skips]. replace (0 + m) with m by lia. rewrite Nat.eqb_sym. destruct (Nat.eqb_spec m n) as [J|J]; cbn.
        - rewrite andb_false_r. reflexivity.
        - rewrite andb_true_r. reflexivity. }
      apply (r_perform ops _ (ws_cons s) _ (Some n) i t (MRequest bs) v ev' I1 NT M').
      * intros m. destruct (nth_error (ws_cons s) m) as [d|] eqn:N; [|rewrite nth_mapi, nth_upd, N; cbn; destruct (Nat.eqb m n); exact Logic.I].
        rewrite (MAPI m d N). unfold hardly. destruct (Nat.eqb_spec m n) as [J|J].
        -- subst m. rewrite NC in N. injection N as <-. rewrite (proj2 (on_srv_iff i c) CS). split; [apply ident_set|]. exists XServerByte. eexists. split; [exact X|]. split; [reflexivity|].
           right. split; [reflexivity|]. split; [reflexivity|]. do 3 eexists. split; reflexivity.
        -- destruct (on_srv i d) eqn:O; [|reflexivity]. apply on_srv_iff in O. pose proof (r_con _ _ _ I1 m d N) as B'. rewrite O in B'. destruct B' as (t0 & T0 & B'). rewrite NT in T0. injection T0 as <-.
           destruct (srv_all (MRequest bs) d t v ev' B' M') as (r1 & e1 & X1 & ->). split; [apply ident_set|]. exists (XServer (MRequest bs)), e1. auto.
      * intros b E; injection E as <-. right. exists n, c, c', (vr_next (x_server (co_rpc c))). split; [exact NC|]. split; [rewrite (MAPI n c NC), Nat.eqb_refl; reflexivity|]. split; [exact CS|].
        split; [cbn [co_tr c' co_set]; apply in_app_iff; right; left; reflexivity|]. intros I2. pose proof (r_low _ _ _ I1 n c i t _ bs NC CS NT I2) as LT.
        destruct B as (B1 & _). rewrite B1, (it_next _ (r_inst _ _ _ I1 i t NT)) in LT. lia.
Qed.
Lemma r_step ops o s s' : INVW ops s -> ws_step o s = Some s' -> INVW (ops ++ [o]) s'.
Proof.
  intros I0 E. assert (I1 : INVW (ops ++ [o]) s) by (apply r_more, I0). assert (IO : In o (ops ++ [o])) by (apply in_app_iff; right; left; reflexivity). revert I1 IO. generalize (ops ++ [o]). clear I0 ops. intros ops I1 IO.
  destruct o as [d|p x m req|n o|n i|i op|i bs]; cbn [ws_step] in E.
  - destruct d as [p c|p [x name id r|x ms|x|x name|x h|x| | |k now|x|x k]]; try (apply (r_disc _ _ _ _ I1 E)); try discriminate.
    + destruct (aget p (dn_procs (ws_net s))) as [q|]; [|apply (r_disc _ _ _ _ I1 E)]. destruct (aget x (px_srv q)); [apply (r_disc _ _ _ _ I1 E)|].
      destruct (bindable _ _ _); [|discriminate]. destruct (ws_disc _ s) as [s1|] eqn:D; [|discriminate]. injection E as <-. unfold INVW, ws_serve. cbn. apply r_new_inst, (r_disc _ _ _ _ I1 D).
    + destruct (ws_disc _ s) as [s1|] eqn:D; [|discriminate]. injection E as <-. apply r_end, (r_disc _ _ _ _ I1 D).
    + destruct (ws_disc _ s) as [s1|] eqn:D; [|discriminate]. injection E as <-. apply r_go, (r_disc _ _ _ _ I1 D).
  - destruct (the_client (ws_net s) p x) as [[q d]|]; [|injection E as <-; exact I1]. destruct (is_nil (cx_name d) || is_nil m)%bool eqn:NL; [injection E as <-; exact I1|].
    destruct (ws_disc _ s) as [s1|] eqn:D; [|discriminate]. pose proof (r_disc _ _ _ _ I1 D) as I2. destruct (the_client (ws_net s1) p x) as [[q1 d1]|]; [|injection E as <-; exact I2].
    injection E as <-. apply r_ask_all; [exact I2|exact IO|]. intros ->. cbn in NL. rewrite orb_true_r in NL. discriminate.
  - destruct (nth_error (ws_cons s) n) as [c|] eqn:NC; [|discriminate]. destruct (legal o c && modern c)%bool eqn:L; [|discriminate]. apply andb_true_iff in L. destruct L as [L _].
    destruct (co_step o c) as [[c' e]|] eqn:ST; [|discriminate]. apply (r_wcon ops n o c c' e s s' I1 NC L ST E).
  - destruct (nth_error (ws_cons s) n) as [c|] eqn:NC; [|discriminate]. destruct (nth_error (ws_insts s) i) as [t|] eqn:NT; [|discriminate].
    destruct (co_srv c) eqn:CS; [discriminate|]. destruct (reaches c t && modern c)%bool; [|discriminate].
    destruct (co_step (XClient (CConnect true)) (co_bind i t c)) as [[c' e]|] eqn:ST; [|discriminate]. injection E as <-. unfold INVW. cbn.
    pose proof (r_bind ops _ _ n i t c I1 NC NT CS) as I2. unfold co_step in ST. destruct (x_step _ _) as [[r e0]|] eqn:X; [|discriminate]. injection ST as <- <-.
    apply (r_soft ops (ws_insts s) _ _ _ I2 (sim_il_refl _)). intros m. rewrite !nth_upd. destruct (Nat.eqb_spec m n) as [J|J]; [subst m; rewrite NC|destruct (nth_error (ws_cons s) m); [apply soft_refl|exact Logic.I]].
    split; [apply ident_set|]. right. exists (XClient (CConnect true)), e0. split; [left; reflexivity|]. split; [split; [exact X|apply (x_soft (XClient (CConnect true)) _ _ _ eq_refl X)]|]. split; [reflexivity|discriminate].
  - destruct op; try discriminate; apply (r_do ops i _ s s' I1 E); discriminate.
  - apply (r_do ops i _ s s' I1 E). intros b X. injection X as <-. exact IO.
Qed.
Lemma ws_run_app l1 l2 s : ws_run (l1 ++ l2) s = match ws_run l1 s with Some s1 => ws_run l2 s1 | None => None end.
Proof. revert s. induction l1 as [|o l1 IH]; intros s; cbn; [reflexivity|]. destruct (ws_step o s); auto. Qed.
Lemma wreach_snoc ops o s : wreach (ops ++ [o]) s <-> exists s1, wreach ops s1 /\ ws_step o s1 = Some s.
Proof.
  unfold wreach. rewrite ws_run_app. split.
  - destruct (ws_run ops wsv0) as [s1|]; [|discriminate]. cbn. intros E. exists s1. split; [reflexivity|]. destruct (ws_step o s1); congruence.
  - intros (s1 & -> & E). cbn. rewrite E. reflexivity.
Qed.
Lemma r_all ops : forall s, wreach ops s -> INVW ops s.
Proof.
  induction ops as [|o ops IH] using rev_ind; intros s R; [injection R as <-; apply inv_r0|]. apply wreach_snoc in R. destruct R as (s1 & R1 & E). apply (r_step ops o s1 s (IH s1 R1) E).
Qed.
