(** Proofs about services as a whole: the statements. *)
From Coq Require Import Lia Bool.
From Verif Require Import Base Sample ExpMapModel PbModel PbSpec SerModel SerSpec SrvModel SrvSpec CliModel CliSpec FrmModel RpcModel RpcSpec RpcProofs SdsModel WsvModel WsvSpec WsvProofs WsvNetProofs.
From Verif Require SdsSpec SdsProofs.

(** ** What a step of the client session keeps *)
Ltac cs E := unfold with_events, next, loss, send in E; cbn in E;
  repeat (match type of E with context [match ?x with _ => _ end] => destruct x eqn:?; cbn in E; try discriminate end); try discriminate; injection E as <- <-; cbn in *.
Lemma c_stopped_keep op s s' e : c_step op s = Some (s', e) -> op <> CStop -> c_stopped s' = c_stopped s.
Proof. intros E N. destruct op; try congruence; cbn [c_step] in E; cs E; congruence. Qed.
Lemma c_next_le op s s' e : c_step op s = Some (s', e) -> c_next s <= c_next s' /\ forall d, In (EvAccept d) e -> c_next s <= d.
Proof. intros E. destruct op; cbn [c_step] in E; cs E; (split; [lia|]); intros d0 I1; repeat (destruct I1 as [I1|I1]; try discriminate); try contradiction; injection I1 as <-; lia. Qed.
Definition shut (c : cli) : Prop := pfail c = true -> c_sock c = false.
Lemma c_shut op s s' e : c_step op s = Some (s', e) -> shut s -> shut s'.
Proof.
  unfold shut, pfail. intros E H. destruct op; cbn [c_step] in E; cs E; intros F; rewrite ?Heqp in *; try congruence; auto; try discriminate.
  all: try (apply H; destruct (c_phase s); congruence).
Qed.
Lemma started_shut e c : c_sock c = false -> started e c = None.
Proof. intros S1. unfold started. destruct (flat_map _ e); [reflexivity|]. rewrite S1. reflexivity. Qed.
Definition closed (r : rpc) : Prop := pfail (x_cli r) = true /\ c_sock (x_cli r) = false.
Lemma client_closed op r r' e : client op r = Some (r', e) -> closed r -> closed r' /\ outs e = [] /\ gots e = [] /\ c_next (x_cli r) <= c_next (x_cli r') /\ forall k bs, ~ In (XAsk k bs) e.
Proof.
  unfold client. destruct (c_step op (x_cli r)) as [[c ev]|] eqn:C; [|discriminate]. intros E [F S0]. pose proof (c_fails _ _ _ _ C F) as F'. assert (S' : c_sock c = false) by (apply (c_shut _ _ _ _ C); [intros _; exact S0|exact F']).
  unfold write_request in E. cbn [x_cli set_cli] in E. rewrite (started_shut _ _ S') in E. injection E as <- <-. rewrite app_nil_r. split; [split; assumption|].
  split; [clear C; induction ev; auto|]. split; [clear C; induction ev; auto|]. split; [exact (proj1 (c_next_le _ _ _ _ C))|]. intros k bs I1. apply in_map_iff in I1. destruct I1 as (x & X & _). discriminate.
Qed.
Lemma srv_quiet l : outs (map XSrv l) = []. Proof. induction l; auto. Qed.
Lemma reply_outs ev s s' o : reply ev s = (s', o) -> outs o = [].
Proof. unfold reply. destruct (x_sess s); try (intros E; injection E as <- <-; reflexivity). destruct ev as [|[| |k1 b1| |] [|]]; try (intros E; injection E as <- <-; reflexivity). destruct (Nat.eqb k1 k); intros E; injection E as <- <-; reflexivity. Qed.
Lemma outs_app a b : outs (a ++ b) = outs a ++ outs b. Proof. apply flat_map_app. Qed.
Lemma serve_outs op s s' e : serve op s = Some (s', e) -> outs e = [].
Proof.
  unfold serve. destruct (m_step op (x_server s)) as [[v ev]|]; [|discriminate]. destruct (reply ev (set_server v s)) as [s1 o] eqn:R. intros E; injection E as <- <-.
  change (outs (XDo op :: map XSrv ev ++ o)) with (outs (map XSrv ev ++ o)). rewrite outs_app, srv_quiet, (reply_outs _ _ _ _ R). reflexivity.
Qed.
Lemma x_closed o r r' e : x_step o r = Some (r', e) -> closed r -> closed r' /\ outs e = [] /\ c_next (x_cli r) <= c_next (x_cli r') /\ forall k bs, In (XAsk k bs) e -> c_next (x_cli r) <= k.
Proof.
  intros E C. assert (SC : match o with XServerByte | XServer _ | XLost => True | _ => False end -> outs e = [] -> (forall k bs, ~ In (XAsk k bs) e) -> closed r' /\ outs e = [] /\ c_next (x_cli r) <= c_next (x_cli r') /\ forall k bs, In (XAsk k bs) e -> c_next (x_cli r) <= k).
  { intros H O A. pose proof (x_calm _ _ _ _ H E) as Q. unfold closed. rewrite Q. split; [exact C|]. split; [exact O|]. split; [lia|]. intros k bs I1. destruct (A k bs I1). }
  destruct o as [bs|op| | |op|].
  - cbn [x_step c_step] in E. destruct C as [F S0]. destruct (c_stopped (x_cli r)); injection E as <- <-; cbn [x_cli set_cli c_next].
    + split; [split; assumption|]. split; [reflexivity|]. split; [lia|]. intros k bs' [X|[]]; discriminate.
    + split; [split; assumption|]. split; [reflexivity|]. split; [lia|]. intros k bs' [X|[X|[]]]; [discriminate|]. injection X as <- _. lia.
  - cbn [x_step] in E. destruct (with_data op); [discriminate|]. destruct (client op r) as [[s1 o1]|] eqn:CL; [|discriminate]. destruct (client_closed _ _ _ _ CL C) as (C' & O & _ & L & A).
    assert (FIN : closed s1 /\ outs o1 = [] /\ c_next (x_cli r) <= c_next (x_cli s1) /\ forall k bs, In (XAsk k bs) o1 -> c_next (x_cli r) <= k) by (split; [exact C'|]; split; [exact O|]; split; [exact L|]; intros k bs I1; destruct (A k bs I1)).
    destruct op as [| | | |[|]| | | | | |]; try (injection E as <- <-; exact FIN). destruct (c_phase (x_cli s1)) as [| |[|]| | |]; injection E as <- <-; exact FIN.
  - cbn [x_step] in E. destruct C as [F S0]. destruct (x_down r) as [|b bs]; [discriminate|]. unfold pfail in F. destruct (c_phase (x_cli r)) eqn:P; try discriminate. destruct (c_cur (x_cli r)) as [[c0 o0|c0 [|]]|]; try discriminate.
    assert (CR : forall bs rd, closed (read_down bs rd r)) by (intros; split; [cbn; unfold pfail; rewrite P; reflexivity|exact S0]).
    destruct (push (x_cread r) b) as [rd|m]; [injection E as <- <-; split; [apply CR|]; split; [reflexivity|]; split; [cbn; lia|intros k b0 []]|]. destruct (Z.eqb _ _).
    + destruct (client _ _) as [[s1 o1]|] eqn:CL; [|discriminate]. injection E as <- <-. destruct (client_closed _ _ _ _ CL (CR _ _)) as (C' & O & _ & L & A). split; [exact C'|]. split; [exact O|]. split; [exact L|]. intros k b0 [X|I1]; [discriminate|destruct (A _ _ I1)].
    + destruct (client_closed _ _ _ _ E (CR _ _)) as (C' & O & _ & L & A). split; [exact C'|]. split; [exact O|]. split; [exact L|]. intros k b0 I1; destruct (A _ _ I1).
  - assert (OA : outs e = [] /\ forall k bs, ~ In (XAsk k bs) e); [|apply (SC Logic.I); apply OA]. clear SC. destruct (x_hard XServerByte _ _ _ eq_refl E) as [(_ & -> & _)|(op & ev & _ & _ & _ & A & _)]; [split; [reflexivity|intros k bs []]|]. split; [|exact A].
    cbn [x_step] in E. destruct (x_up r) as [|b bs]; [discriminate|]. destruct (x_sess r); try discriminate; destruct (push (x_sread r) b) as [rd|m]; try (injection E as <- <-; reflexivity).
    + destruct (server_choice v_min v_max m); injection E as <- <-; reflexivity.
    + destruct (Z.eqb _ _); [|injection E as <- <-; reflexivity]. destruct (serve _ _) as [[s1 o1]|] eqn:S1; [|discriminate]. injection E as <- <-. apply (serve_outs _ _ _ _ S1).
  - apply (SC Logic.I); [apply (serve_outs _ _ _ _ E)|]. destruct (serve_eff _ _ _ _ E) as (ev & _ & _ & _ & _ & A). exact A.
  - cbn [x_step] in E. destruct (x_sess r); try discriminate; injection E as <- <-; apply (SC Logic.I); try reflexivity; intros ? ? [].
Qed.
Lemma x_shut o r r' e : x_step o r = Some (r', e) -> shut (x_cli r) -> shut (x_cli r').
Proof.
  intros E H. destruct o as [bs|op| | |op|].
  4-6: apply x_calm in E; [rewrite E; exact H|exact Logic.I].
  - cbn [x_step c_step] in E. destruct (c_stopped (x_cli r)); injection E as <- <-; exact H.
  - cbn [x_step] in E. destruct (with_data op); [discriminate|]. destruct (client op r) as [[s1 o1]|] eqn:C; [|discriminate]. destruct (client_cli _ _ _ _ C) as (ev & C1). pose proof (c_shut _ _ _ _ C1 H) as H1.
    destruct op as [| | | |[|]| | | | | |]; try (injection E as <- _; exact H1). destruct (c_phase (x_cli s1)) as [| |[|]| | |]; injection E as <- _; exact H1.
  - cbn [x_step] in E. destruct (x_down r) as [|b bs]; [discriminate|].
    assert (CR : forall op s1 o1 bs rd, client op (read_down bs rd r) = Some (s1, o1) -> shut (x_cli s1)) by (intros op s1 o1 b0 rd C; destruct (client_cli _ _ _ _ C) as (ev & C1); apply (c_shut _ _ _ _ C1 H)).
    destruct (c_phase (x_cli r)) as [| | |[|]| |]; try (destruct (c_cur (x_cli r)) as [[c0 o0|c0 [|]]|]; try discriminate; destruct (push (x_cread r) b) as [rd|m]; [injection E as <- _; exact H|]; destruct (Z.eqb _ _); [destruct (client _ _) as [[s1 o1]|] eqn:C; [|discriminate]; injection E as <- _; apply (CR _ _ _ _ _ C)|apply (CR _ _ _ _ _ E)]).
    destruct (push (x_cread r) b) as [rd|m]; [injection E as <- _; exact H|apply (CR _ _ _ _ _ E)].
Qed.
Lemma x_stopped_keep o r r' e : x_step o r = Some (r', e) -> o <> XClient CStop -> c_stopped (x_cli r') = c_stopped (x_cli r).
Proof.
  intros E H. destruct o as [bs|op| | |op|].
  4-6: apply x_calm in E; [rewrite E; reflexivity|exact Logic.I].
  - cbn [x_step c_step] in E. destruct (c_stopped (x_cli r)) eqn:Q; injection E as <- <-; cbn; congruence.
  - cbn [x_step] in E. destruct (with_data op); [discriminate|]. destruct (client op r) as [[s1 o1]|] eqn:C; [|discriminate]. destruct (client_cli _ _ _ _ C) as (ev & C1). assert (N : op <> CStop) by congruence. pose proof (c_stopped_keep _ _ _ _ C1 N) as H1.
    destruct op as [| | | |[|]| | | | | |]; try (injection E as <- _; exact H1). destruct (c_phase (x_cli s1)) as [| |[|]| | |]; injection E as <- _; exact H1.
  - cbn [x_step] in E. destruct (x_down r) as [|b bs]; [discriminate|].
    assert (CR : forall op s1 o1 bs rd, op <> CStop -> client op (read_down bs rd r) = Some (s1, o1) -> c_stopped (x_cli s1) = c_stopped (x_cli r)) by (intros op s1 o1 b0 rd N C; destruct (client_cli _ _ _ _ C) as (ev & C1); apply (c_stopped_keep _ _ _ _ C1 N)).
    destruct (c_phase (x_cli r)) as [| | |[|]| |]; try (destruct (c_cur (x_cli r)) as [[c0 o0|c0 [|]]|]; try discriminate; destruct (push (x_cread r) b) as [rd|m]; [injection E as <- _; reflexivity|]; destruct (Z.eqb _ _); [destruct (client _ _) as [[s1 o1]|] eqn:C; [|discriminate]; injection E as <- _; refine (CR _ _ _ _ _ _ C); discriminate|refine (CR _ _ _ _ _ _ E); discriminate]).
    destruct (push (x_cread r) b) as [rd|m]; [injection E as <- _; reflexivity|]. refine (CR _ _ _ _ _ _ E). discriminate.
Qed.

(** ** How sessions and servers go on *)
Definition kept (t t' : winst) : Prop := wi_proc t' = wi_proc t /\ wi_x t' = wi_x t /\ wi_cfg t' = wi_cfg t /\ wi_srv t' = wi_srv t.
Definition reached (c : wcon) (t : winst) : Prop := modern c = true /\ port1 t <> 0%Z /\ exists rest, ss_ends (co_ses c) = (pc_host (wi_cfg t), port1 t) :: rest.
Definition idco (c c' : wcon) : Prop := co_proc c' = co_proc c /\ co_x c' = co_x c /\ co_name c' = co_name c /\ co_key c' = co_key c /\ co_ses c' = co_ses c.
(** What a session can do before it is connected. *)
Definition alone (o : xop) : bool := match o with XCall _ | XClientByte => true | XClient (CConnect true) => false | XClient _ => true | _ => false end.
Definition moves (il : list winst) (c c' : wcon) : Prop := idco c c' /\ (co_open c' = true -> co_open c = true) /\
  ((co_srv c' = co_srv c /\ co_rpc c' = co_rpc c /\ co_tr c' = co_tr c) \/
   (co_srv c' = co_srv c /\ exists o e, x_step o (co_rpc c) = Some (co_rpc c', e) /\ co_tr c' = co_tr c ++ e /\ (co_open c' = true -> o <> XClient CStop) /\ (co_srv c = None -> alone o = true)) \/
   exists i t e, co_srv c = None /\ co_srv c' = Some i /\ nth_error il i = Some t /\ wi_up t = true /\ reached c t /\ pfail (x_cli (co_rpc c)) = false /\
     x_step (XClient (CConnect true)) (set_server (wi_state t) (co_rpc c)) = Some (co_rpc c', e) /\ co_tr c' = (wi_tr t ++ co_tr c) ++ e).
Definition starts (cl : list wcon) (n : nat) (c : wcon) : Prop := nth_error cl n = Some c \/ (length cl <= n /\ exists p x nm k z, c = co_new p x nm k z).
Definition goes (s s' : wsv) : Prop :=
  (forall n c', con s' n c' -> exists c, starts (ws_cons s) n c /\ moves (ws_insts s) c c') /\
  (forall n c, con s n c -> exists c', con s' n c' /\ moves (ws_insts s) c c') /\
  (forall i t, inst s i t -> exists t', inst s' i t' /\ kept t t').
Lemma moves_refl il c : moves il c c. Proof. split; [repeat split|]. split; [auto|]. left. auto. Qed.
Lemma moves_do il o c : o <> XClient CStop -> (co_srv c = None -> alone o = true) -> moves il c (co_do o c).
Proof.
  intros N AL. unfold co_do, co_step. destruct (x_step o (co_rpc c)) as [[r e]|] eqn:X; [|apply moves_refl]. split; [repeat split|]. split; [auto|]. right. left. split; [reflexivity|]. exists o, e. cbn. auto.
Qed.
Lemma moves_stop il c : moves il c (co_close (co_do (XClient CStop) c)).
Proof.
  unfold co_do, co_step. destruct (x_step (XClient CStop) (co_rpc c)) as [[r e]|] eqn:X; (split; [repeat split|]; split; [discriminate|]); [|left; auto]. right. left. split; [reflexivity|]. exists (XClient CStop), e. cbn. split; [exact X|]. split; [reflexivity|]. split; [discriminate|reflexivity].
Qed.
(** From an old list to the old one with new sessions, each of which then moves. *)
Lemma goes_list (s s' : wsv) (news : list wcon) : (forall c, In c news -> exists p x nm k z, c = co_new p x nm k z) ->
  sim_cl (fun _ => moves (ws_insts s)) (ws_cons s ++ news) (ws_cons s') -> (forall i t, inst s i t -> exists t', inst s' i t' /\ kept t t') -> goes s s'.
Proof.
  intros N S1 K. split; [|split; [|exact K]].
  - intros n c' C. destruct (sim_cl_back _ _ _ _ _ S1 C) as (c & C0 & M). exists c. split; [|exact M]. destruct (nth_new _ _ _ _ C0) as [C1|[L I1]]; [left; exact C1|right; split; [exact L|apply N, I1]].
  - intros n c C. destruct (sim_cl_fwd _ _ _ n c S1 (nth_old _ news _ _ C)) as (c' & C' & M). exists c'. auto.
Qed.
Lemma kept_refl t : kept t t. Proof. repeat split. Qed.
Lemma sim_refl il cl : sim_cl (fun _ => moves il) cl cl. Proof. intros n. destruct (nth_error cl n); [apply moves_refl|exact Logic.I]. Qed.
Lemma kept_upd i t t' il j u : nth_error il i = Some t -> kept t t' -> nth_error il j = Some u -> exists u', nth_error (upd i t' il) j = Some u' /\ kept u u'.
Proof.
  intros N K M. rewrite nth_upd, M. destruct (Nat.eqb_spec j i) as [J|J]; [|exists u; split; [reflexivity|apply kept_refl]]. subst j. rewrite N in M. injection M as <-. eauto.
Qed.
Lemma perform_goes skip i op s s' (f : nat -> wcon -> wcon) cl0 : ws_perform skip i op s = Some s' -> ws_cons s = mapi f 0 cl0 ->
  (forall j c, nth_error cl0 j = Some c -> skips skip j = true \/ f j c = c) -> (forall j c, nth_error cl0 j = Some c -> moves (ws_insts s) c (f j c)) ->
  sim_cl (fun _ => moves (ws_insts s)) cl0 (ws_cons s') /\ (forall j t, inst s j t -> exists t', inst s' j t' /\ kept t t') /\ ws_net s' = ws_net s.
Proof.
  unfold ws_perform. destruct (nth_error (ws_insts s) i) as [t|] eqn:NT; [|discriminate]. destruct (m_step op (wi_state t)) as [[v ev]|]; [|discriminate]. intros E CL SK MV. injection E as <-. cbn [ws_cons]. split; [|split; [|reflexivity]].
  - intros n. rewrite nth_mapi, CL, nth_mapi. cbn [Nat.add]. destruct (nth_error cl0 n) as [c|] eqn:NC; cbn [option_map]; [|exact Logic.I]. destruct (SK n c NC) as [S1|S1].
    + rewrite S1, andb_false_r. apply MV, NC.
    + rewrite S1. destruct (on_srv i c && negb (skips skip n))%bool eqn:OS; [apply moves_do; [discriminate|]|apply moves_refl]. intros Q. unfold on_srv in OS. rewrite Q in OS. discriminate.
  - intros j u NU. unfold inst. cbn [ws_insts]. apply (kept_upd i t _ _ j u NT); [repeat split|exact NU].
Qed.
Lemma mapi_id {A} (l : list A) : l = mapi (fun _ c => c) 0 l.
Proof. generalize 0. induction l as [|a l IH]; intros k; cbn; [reflexivity|]. rewrite <- IH. reflexivity. Qed.
Lemma sim_length R cl cl' : sim_cl R cl cl' -> length cl = length cl'.
Proof.
  intros S1. destruct (Nat.lt_trichotomy (length cl) (length cl')) as [Q|[Q|Q]]; auto; exfalso.
  - specialize (S1 (length cl)). rewrite (proj2 (nth_error_None cl _) (le_n _)) in S1. apply nth_error_Some in Q. destruct (nth_error cl' (length cl)); [exact S1|congruence].
  - specialize (S1 (length cl')). rewrite (proj2 (nth_error_None cl' _) (le_n _)) in S1. apply nth_error_Some in Q. destruct (nth_error cl (length cl')); [exact S1|congruence].
Qed.
Lemma sim_app il cl cl' l : sim_cl (fun _ => moves il) cl cl' -> sim_cl (fun _ => moves il) (cl ++ l) (cl' ++ l).
Proof.
  intros S1 m. pose proof (sim_length _ _ _ S1) as LL. specialize (S1 m). destruct (Nat.ltb_spec m (length cl)) as [Q|Q].
  - rewrite !nth_error_app1 by lia. exact S1.
  - rewrite !nth_error_app2 by lia. rewrite LL. destruct (nth_error l _); [apply moves_refl|exact Logic.I].
Qed.
Lemma goes_step ops o s s' : INVN ops s -> ws_step o s = Some s' -> goes s s'.
Proof.
  intros I1 E. assert (SAME : forall i t, inst s i t -> exists t', inst s i t' /\ kept t t') by (intros i t N; exists t; split; [exact N|apply kept_refl]).
  assert (DISC : forall d s1, ws_disc d s = Some s1 -> exists n1 news, s1 = Wsv n1 (ws_hist s ++ [d]) (ws_insts s) (ws_cons s ++ news) /\ (forall c, In c news -> exists p x nm k z, c = co_new p x nm k z)).
  { intros d s1 X. destruct (disc_shape _ _ _ X) as (n1 & _ & ->). exists n1, (opened d (ws_net s) n1). split; [reflexivity|]. intros c. apply opened_new. }
  assert (DISC0 : forall d s1, ws_disc d s = Some s1 -> goes s s1).
  { intros d s1 X. destruct (DISC d s1 X) as (n1 & news & -> & NW). apply (goes_list _ _ news NW); [apply sim_refl|exact SAME]. }
  destruct o as [d|p x m req|n o|n i|i op|i bs]; cbn [ws_step] in E.
  - destruct d as [p c|p [x name id r|x ms|x|x name|x h|x| | |k now|x|x k]]; try (apply (DISC0 _ _ E)); try discriminate.
    + destruct (aget p (dn_procs (ws_net s))) as [q|]; [|apply (DISC0 _ _ E)]. destruct (aget x (px_srv q)); [apply (DISC0 _ _ E)|]. destruct (bindable _ _ _); [|discriminate]. destruct (ws_disc _ s) as [s1|] eqn:DS; [|discriminate]. injection E as <-.
      destruct (DISC _ _ DS) as (n1 & news & -> & NW). apply (goes_list _ _ news NW); [apply sim_refl|]. intros i t N. exists t. split; [apply nth_old, N|apply kept_refl].
    + destruct (ws_disc _ s) as [s1|] eqn:DS; [|discriminate]. injection E as <-. destruct (DISC _ _ DS) as (n1 & news & -> & NW). apply (goes_list _ _ news NW); cbn [ws_cons ws_end ws_insts].
      * intros m. rewrite nth_error_map. destruct (nth_error (ws_cons s ++ news) m) as [c|]; cbn [option_map]; [|exact Logic.I]. destruct (srv_ends _ _ _ c) eqn:SE; [apply moves_do; [discriminate|]|apply moves_refl]. intros Q. unfold srv_ends in SE. rewrite Q in SE. discriminate.
      * intros i t N. unfold inst. cbn [ws_insts ws_end]. rewrite nth_error_map. unfold inst in N. rewrite N. cbn [option_map]. eexists. split; [reflexivity|]. destruct (is_srv p x t); repeat split.
    + destruct (ws_disc _ s) as [s1|] eqn:DS; [|discriminate]. injection E as <-. destruct (DISC _ _ DS) as (n1 & news & -> & NW). apply (goes_list _ _ news NW); cbn [ws_cons ws_go with_cons ws_insts]; [|exact SAME].
      intros m. rewrite nth_error_map. destruct (nth_error (ws_cons s ++ news) m) as [c|]; cbn [option_map]; [|exact Logic.I]. destruct (is_con p x c); [apply moves_stop|apply moves_refl].
  - assert (ID : goes s s) by (apply (goes_list s s []); [intros c []|rewrite app_nil_r; apply sim_refl|exact SAME]).
    destruct (the_client (ws_net s) p x) as [[q d]|]; [|injection E as <-; exact ID]. destruct (_ || _)%bool; [injection E as <-; exact ID|]. destruct (ws_disc _ s) as [s1|] eqn:DS; [|discriminate].
    destruct (the_client (ws_net s1) p x) as [[q1 d1]|]; injection E as <-; [|apply (DISC0 _ _ DS)]. destruct (DISC _ _ DS) as (n1 & news & -> & NW). apply (goes_list _ _ news NW); cbn [ws_cons ws_ask with_cons ws_insts]; [|exact SAME].
    intros k. rewrite nth_error_map. destruct (nth_error (ws_cons s ++ news) k) as [c|]; cbn [option_map]; [|exact Logic.I]. destruct (is_target _ _ _ c); [apply moves_do; [discriminate|reflexivity]|apply moves_refl].
  - destruct (nth_error (ws_cons s) n) as [c|] eqn:NC; [|discriminate]. destruct (legal o c && modern c)%bool eqn:LG; [|discriminate]. rewrite andb_true_iff in LG. destruct LG as [LG _]. destruct (co_step o c) as [[c' e]|] eqn:CS; [|discriminate].
    set (s1 := with_cons (upd n c' (ws_cons s)) s) in *.
    assert (MV : moves (ws_insts s) c c').
    { replace c' with (co_do o c) by (unfold co_do; rewrite CS; reflexivity). apply moves_do; [intros ->; discriminate|]. intros Q. unfold legal in LG. rewrite Q in LG. destruct o as [|[| | | |[|]| | | | | |]| | | |]; try discriminate; reflexivity. }
    assert (NOTE : forall s2, sim_cl (fun _ => moves (ws_insts s)) (ws_cons s) (ws_cons s2) -> (forall j t, inst s j t -> exists t', inst s2 j t' /\ kept t t') -> ws_note c c' s2 = Some s' -> goes s s').
    { intros s2 S2 K2 X. unfold ws_note in X. destruct (_ && _)%bool.
      - destruct (disc_shape _ _ _ X) as (n1 & _ & ->). apply (goes_list s _ (opened (DAt (co_proc c') (PFail (co_x c') (co_key c'))) (ws_net s2) n1)); [intros c0; apply opened_new| |exact K2]. cbn [ws_cons].
        apply sim_app, S2.
      - injection X as <-. apply (goes_list s s2 []); [intros c0 []|rewrite app_nil_r; exact S2|exact K2]. }
    assert (S1 : sim_cl (fun _ => moves (ws_insts s)) (ws_cons s) (ws_cons s1)) by (apply (sim_upd _ n c c' _ NC MV); intros d; apply moves_refl).
    destruct e as [|[] e]; try (apply (NOTE s1 S1 SAME E)). destruct (co_srv c) as [i|]; [|apply (NOTE s1 S1 SAME E)]. destruct (ws_perform _ i _ s1) as [s2|] eqn:P; [|discriminate].
    destruct (perform_goes _ _ _ _ _ (fun j d => if Nat.eqb j n then c' else d) (ws_cons s) P eq_refl) as (S2 & K2 & _).
    + intros j d _. cbn [skips]. rewrite Nat.eqb_sym. destruct (Nat.eqb j n); auto.
    + intros j d ND. destruct (Nat.eqb_spec j n) as [J|J]; [|apply moves_refl]. subst j. rewrite NC in ND. injection ND as <-. exact MV.
    + apply (NOTE s2 S2 K2 E).
  - destruct (nth_error (ws_cons s) n) as [c|] eqn:NC; [|discriminate]. destruct (nth_error (ws_insts s) i) as [t|] eqn:NT; [|discriminate]. destruct (co_srv c) eqn:CS; [discriminate|]. destruct (reaches c t && modern c)%bool eqn:RE; [|discriminate].
    destruct (co_step _ _) as [[c' e]|] eqn:ST; [|discriminate]. injection E as <-. rewrite andb_true_iff in RE. destruct RE as [RE MO]. apply (goes_list s _ []); [intros c0 []| |exact SAME]. rewrite app_nil_r. cbn [ws_cons with_cons].
    apply (sim_upd _ n c c' _ NC); [|intros d; apply moves_refl]. unfold co_step in ST. destruct (x_step _ _) as [[r e0]|] eqn:X; [|discriminate]. injection ST as <- _. split; [repeat split|]. split; [auto|]. right. right. exists i, t, e0.
    unfold reaches in RE. destruct (c_phase (x_cli (co_rpc c))) eqn:PH; try discriminate. destruct (ss_ends (co_ses c)) as [|[h pt] rest] eqn:EN; [discriminate|]. rewrite !andb_true_iff, negb_true_iff, Z.eqb_eq, Z.eqb_neq in RE. destruct RE as [[[U H] P1] P2]. apply eqb_true in H.
    split; [exact CS|]. split; [reflexivity|]. split; [exact NT|]. split; [exact U|]. split; [split; [exact MO|]; split; [unfold port1; congruence|]; exists rest; rewrite EN; unfold port1; congruence|]. split; [unfold pfail; rewrite PH; reflexivity|]. split; [exact X|reflexivity].
  - destruct op; try discriminate; destruct (perform_goes _ _ _ _ _ (fun _ d => d) (ws_cons s) E (mapi_id _)) as (S2 & K2 & _); auto; try (intros; apply moves_refl); (apply (goes_list s s' []); [intros c0 []|rewrite app_nil_r; exact S2|exact K2]).
  - destruct (perform_goes _ _ _ _ _ (fun _ d => d) (ws_cons s) E (mapi_id _)) as (S2 & K2 & _); auto; try (intros; apply moves_refl). apply (goes_list s s' []); [intros c0 []|rewrite app_nil_r; exact S2|exact K2].
Qed.

Record INVB (s : wsv) : Prop := {
  b_stop : forall n c, con s n c -> co_open c = true -> c_stopped (x_cli (co_rpc c)) = false;
  b_shut : forall n c, con s n c -> shut (x_cli (co_rpc c));
  b_goal : forall n c i, con s n c -> co_srv c = Some i -> exists t, inst s i t /\ reached c t }.
Lemma moves_shut il c c' : moves il c c' -> shut (x_cli (co_rpc c)) -> shut (x_cli (co_rpc c')).
Proof.
  intros (_ & _ & [(_ & -> & _)|[(_ & o & e & X & _)|(i & t & e & _ & _ & _ & _ & _ & _ & X & _)]]) H; [exact H|apply (x_shut _ _ _ _ X H)|apply (x_shut _ _ _ _ X H)].
Qed.
Lemma moves_stopped il c c' : moves il c c' -> co_open c' = true -> (co_open c = true -> c_stopped (x_cli (co_rpc c)) = false) -> c_stopped (x_cli (co_rpc c')) = false.
Proof.
  intros (_ & O & [(_ & -> & _)|[(_ & o & e & X & _ & N & _)|(i & t & e & _ & _ & _ & _ & _ & _ & X & _)]]) O' H; specialize (H (O O')); [exact H| |].
  - rewrite (x_stopped_keep _ _ _ _ X (N O')). exact H.
  - rewrite (x_stopped_keep _ _ _ _ X); [exact H|discriminate].
Qed.
Lemma kept_reached c c' t t' : idco c c' -> kept t t' -> reached c t -> reached c' t'.
Proof. intros (_ & _ & _ & _ & E) (_ & _ & K1 & K2) (M & P & R). unfold reached, modern, port1 in *. rewrite E, K1, K2. auto. Qed.
Lemma b_all ops s : wreach ops s -> INVB s.
Proof.
  revert s. induction ops as [|o ops IH] using rev_ind; intros s R.
  - injection R as <-. constructor; intros [|n] c; discriminate.
  - apply wreach_snoc in R. destruct R as (s1 & R & E). destruct (goes_step _ _ _ _ (n_all _ _ R) E) as (G1 & G2 & G3). destruct (IH _ R) as [A B C]. constructor.
    + intros n c' N O. destruct (G1 n c' N) as (c & ST & M). apply (moves_stopped _ _ _ M O). intros O1. destruct ST as [N0|(_ & p & x & nm & k & z & ->)]; [apply (A n c N0 O1)|reflexivity].
    + intros n c' N. destruct (G1 n c' N) as (c & ST & M). apply (moves_shut _ _ _ M). destruct ST as [N0|(_ & p & x & nm & k & z & ->)]; [apply (B n c N0)|intros X; discriminate].
    + intros n c' i N SV. destruct (G1 n c' N) as (c & ST & M). pose proof M as (ID & _ & M1).
      assert (OLD : co_srv c' = co_srv c -> exists t, inst s i t /\ reached c' t).
      { intros Q. rewrite Q in SV. destruct ST as [N0|(_ & p & x & nm & k & z & ->)]; [|discriminate]. destruct (C n c i N0 SV) as (t & T & RE). destruct (G3 i t T) as (t' & T' & K). exists t'. split; [exact T'|apply (kept_reached _ _ _ _ ID K RE)]. }
      destruct M1 as [(Q & _)|[(Q & _)|(j & t & e & _ & Q & T & _ & RE & _)]]; try (apply OLD, Q). rewrite Q in SV. injection SV as <-. destruct (G3 j t T) as (t' & T' & K). exists t'. split; [exact T'|apply (kept_reached _ _ _ _ ID K RE)].
Qed.

(** ** The statements *)
Lemma hist_sane ops s : wreach ops s -> wsane ops -> SdsSpec.dsane (ws_hist s).
Proof.
  intros R S1. apply Forall_forall. intros o I1. destruct (w_ops _ _ (n_all _ _ R) o I1) as [H|(p & x & [-> |(k & ->)])]; [apply S1, H|exact Logic.I|exact Logic.I].
Qed.
Lemma discovery_lemma ops s : wreach ops s -> SdsSpec.dreach (ws_hist s) (ws_net s) /\ (wsane ops -> SdsSpec.dsane (ws_hist s)) /\
  (forall p x c e, SdsSpec.server (ws_net s) p x c e -> exists i t, inst s i t /\ wi_up t = true /\ wi_proc t = p /\ wi_x t = x /\ wi_cfg t = c /\ wi_facts t = SdsSpec.facts c e) /\
  (forall i t, inst s i t -> wi_up t = true -> exists e, SdsSpec.server (ws_net s) (wi_proc t) (wi_x t) (wi_cfg t) e /\ wi_facts t = SdsSpec.facts (wi_cfg t) e).
Proof.
  intros R. destruct (n_all _ _ R) as [A B C D]. split; [exact A|]. split; [apply (hist_sane _ _ R)|]. split.
  - intros p x c e S1. apply (v_srv _ _ _ D), server_fsrv, S1.
  - intros i t N U. pose proof (v_run _ _ _ D i t N U) as F. unfold fsrv in F. destruct (aget (wi_proc t) _) as [q|] eqn:Q; [|discriminate]. destruct (aget (wi_x t) (px_srv q)) as [e|] eqn:X; [|discriminate]. assert (FF : px_cfg q = wi_cfg t /\ SdsSpec.facts (px_cfg q) e = wi_facts t) by (split; congruence). destruct FF as [F1 F2].
    exists e. split; [exists q; auto|]. rewrite <- F2, F1. reflexivity.
Qed.
Lemma sessions_lemma ops s p x c d k z : wreach ops s -> SdsSpec.client_of (ws_net s) p x c d -> SdsSpec.session d k z ->
  exists n w, con s n w /\ co_open w = true /\ co_proc w = p /\ co_x w = x /\ co_key w = k /\ co_name w = cx_name d /\ ss_ends (co_ses w) = ss_ends z /\ ss_proto (co_ses w) = ss_proto z /\
    (ss_failed z = true <-> c_phase (x_cli (co_rpc w)) = PFailed) /\
    forall n' w', con s n' w' -> co_open w' = true -> co_proc w' = p -> co_x w' = x -> co_key w' = k -> n' = n.
Proof.
  intros R CL SE. destruct (n_all _ _ R) as [A B C D]. assert (S1 : ses_at (ws_net s) p x k = Some (cx_name d, z)) by (apply (ses_session _ _ _ _ _ _ (SdsProofs.reach_good _ _ A)); exists c, d; auto).
  destruct (n_ses _ _ _ _ C _ _ _ _ _ S1) as (n & w & N & O & E1 & E2 & E3 & E4 & E5 & E6 & E7). exists n, w. repeat (split; [assumption|]). split.
  - rewrite <- E7. unfold flag, failed. destruct (c_phase (x_cli (co_rpc w))); split; congruence.
  - intros n' w' N' O' F1 F2 F3. apply (n_uniq _ _ _ _ C n' n w' w N' N O' O). unfold ckey. congruence.
Qed.
Lemma open_lemma ops s n w : wreach ops s -> con s n w -> co_open w = true -> exists c d z, SdsSpec.client_of (ws_net s) (co_proc w) (co_x w) c d /\ SdsSpec.session d (co_key w) z /\ cx_name d = co_name w.
Proof.
  intros R N O. destruct (n_all _ _ R) as [A B C D]. destruct (n_open _ _ _ _ C n w N O) as ([nm z] & S1). pose proof (SdsProofs.reach_good _ _ A) as G. pose proof (proj1 (ses_session _ _ _ _ _ _ G) S1) as (c & d & H1 & H2 & H3). exists c, d, z. split; [exact H1|]. split; [exact H2|].
  destruct (n_ses _ _ _ _ C _ _ _ _ _ S1) as (m & v & M & OV & E1 & E2 & E3 & E4 & _). assert (m = n) by (apply (n_uniq _ _ _ _ C m n v w M N OV O); unfold ckey; congruence). subst m. unfold con in N. rewrite M in N. injection N as <-. congruence.
Qed.
(** What a session is for. *)
Lemma origin_lemma ops s n c : wreach ops s -> wsane ops -> SdsSpec.dfits (ws_net s) -> con s n c -> exists a pt, co_key c = ca_key a /\ ca_name a = co_name c /\ SdsSpec.leads (co_ses c) (ca_host a) pt (ss_proto (co_ses c)) /\ SdsSpec.best a pt (ss_proto (co_ses c)) /\
  (a = SdsSpec.nobody \/ exists j u, inst s j u /\ wi_facts u = a).
Proof.
  intros R S1 F N. destruct (n_all _ _ R) as [A B C D]. destruct (n_from _ _ _ _ C n c N) as (ops1 & ops2 & s1 & H & R1 & SE). pose proof (SdsProofs.reach_good _ _ R1) as G1.
  apply (ses_session _ _ _ _ _ _ G1) in SE. destruct SE as (cf & d & CL & SE & NM). pose proof (hist_sane _ _ R S1) as DS. unfold SdsSpec.dsane in DS. rewrite H in DS. apply Forall_app in DS. destruct DS as [DS1 _].
  assert (F1 : SdsSpec.dfits s1).
  { intros m I1. apply F. unfold SdsSpec.dreach in A. rewrite H, SdsProofs.run_app in A. unfold SdsSpec.dreach in R1. rewrite R1 in A. destruct (SdsProofs.sent_run _ _ _ A) as (out & ->). apply in_app_iff. auto. }
  destruct (SdsProofs.session_lemma ops1 s1 _ _ cf d _ _ DS1 R1 F1 CL SE) as (a & pt & proto & K & NA & RE & LE & BE). exists a, pt. pose proof LE as [LE1 _]. subst proto. split; [exact K|]. split; [congruence|]. split; [exact LE|]. split; [exact BE|].
  destruct RE as (o1 & o2 & s0 & p & x & c' & e & H0 & R0 & SV & [(_ & EA & _)|(_ & EA & _)]); [|left; exact EA]. right.
  destruct (v_hist _ _ _ D o1 (o2 ++ ops2) s0 p x c' (SdsSpec.facts c' e)) as (j & u & NU & _ & _ & _ & FU); [rewrite H, H0, app_assoc; reflexivity|exact R0|apply server_fsrv, SV|]. exists j, u. split; [exact NU|congruence].
Qed.
Lemma modern_port ops s n c t a pt : wreach ops s -> reached c t -> SdsSpec.leads (co_ses c) (ca_host a) pt (ss_proto (co_ses c)) -> SdsSpec.best a pt (ss_proto (co_ses c)) -> con s n c ->
  ca_host a = pc_host (wi_cfg t) /\ ca_port1 a = port1 t /\ port1 t <> 0%Z.
Proof.
  intros R (M & P & rest & EN) [_ LE] BE N. rewrite LE in EN. injection EN as E1 E2 E3. split; [exact E1|]. split; [|exact P]. destruct BE as [(_ & _ & E & _)|(_ & _ & E)]; [congruence|]. unfold modern in M. rewrite E in M. discriminate.
Qed.
Lemma facts_port u : ca_port1 (wi_facts u) = port1 u. Proof. reflexivity. Qed.
Lemma facts_host u : ca_host (wi_facts u) = pc_host (wi_cfg u). Proof. reflexivity. Qed.
Lemma same_server_lemma ops s n c i t : wreach ops s -> wsane ops -> SdsSpec.dfits (ws_net s) -> no_reuse s -> con s n c -> co_srv c = Some i -> inst s i t ->
  co_key c = ca_key (wi_facts t) /\ co_name c = sx_name (wi_srv t).
Proof.
  intros R S1 F NR N CS T. destruct (b_goal _ (b_all _ _ R) n c i N CS) as (t0 & T0 & RE). unfold inst in T, T0. rewrite T in T0. injection T0 as <-.
  destruct (origin_lemma _ _ _ _ R S1 F N) as (a & pt & K & NA & LE & BE & FROM). destruct (modern_port _ _ _ _ _ _ _ R RE LE BE N) as (H1 & H2 & H3).
  destruct FROM as [-> |(j & u & NU & FU)]; [cbn in H2; congruence|]. subst a. rewrite facts_port in H2. rewrite facts_host in H1.
  assert (j = i) by (apply (NR j i u t NU T); unfold port1 in *; congruence). subst j. unfold inst in NU. rewrite T in NU. injection NU as <-. split; [exact K|symmetry; exact NA].
Qed.
Lemma connects_lemma ops s n i s' c t : wreach ops s -> wsane ops -> SdsSpec.dfits (ws_net s) -> ws_step (WConnect n i) s = Some s' -> con s n c -> inst s i t ->
  co_srv c = None /\ wi_up t = true /\ (exists c', con s' n c' /\ co_srv c' = Some i) /\
  exists a, co_key c = ca_key a /\ ca_name a = co_name c /\ ca_host a = pc_host (wi_cfg t) /\ ca_port1 a = sx_port1 (wi_cfg t) (wi_srv t) /\ (exists j u, inst s j u /\ wi_facts u = a) /\
    forall j u, inst s j u -> wi_up u = true -> wi_facts u = a -> j = i.
Proof.
  intros R S1 F E N T. cbn [ws_step] in E. unfold con, inst in N, T. rewrite N, T in E. destruct (co_srv c) eqn:CS; [discriminate|]. destruct (reaches c t && modern c)%bool eqn:RE; [|discriminate]. destruct (co_step _ _) as [[c' e]|] eqn:ST; [|discriminate]. injection E as <-.
  rewrite andb_true_iff in RE. destruct RE as [RE MO]. unfold reaches in RE. destruct (c_phase (x_cli (co_rpc c))) eqn:PH; try discriminate. destruct (ss_ends (co_ses c)) as [|[h pt0] rest] eqn:EN; [discriminate|]. rewrite !andb_true_iff, negb_true_iff, Z.eqb_eq, Z.eqb_neq in RE. destruct RE as [[[U H] P1] P2]. apply eqb_true in H.
  split; [reflexivity|]. split; [exact U|]. split. { exists c'. split; [unfold con; cbn [ws_cons with_cons]; rewrite nth_upd, Nat.eqb_refl, N; reflexivity|]. unfold co_step in ST. destruct (x_step _ _) as [[r e0]|]; [|discriminate]. injection ST as <- _. reflexivity. }
  assert (RC : reached c t) by (split; [exact MO|]; split; [unfold port1; congruence|]; exists rest; rewrite EN; unfold port1; congruence).
  destruct (origin_lemma _ _ _ _ R S1 F N) as (a & pt & K & NA & LE & BE & FROM). destruct (modern_port _ _ _ _ _ _ _ R RC LE BE N) as (H1 & H2 & H3). exists a. split; [exact K|]. split; [exact NA|]. split; [exact H1|]. split; [exact H2|]. split.
  - destruct FROM as [-> |X]; [cbn in H2; congruence|exact X].
  - intros j u NU UU FU. subst a. apply (v_ports _ _ _ (w_srv _ _ (n_all _ _ R)) j i u t NU T UU U); [rewrite <- facts_host; exact H1|rewrite <- facts_port; exact H2|rewrite <- facts_port; congruence].
Qed.
Lemma connection_lemma ops s n c : wreach ops s -> con s n c ->
  match co_srv c with
  | Some i => exists t, inst s i t /\ ss_proto (co_ses c) <> 0%Z /\ (exists rest, ss_ends (co_ses c) = (pc_host (wi_cfg t), sx_port1 (wi_cfg t) (wi_srv t)) :: rest) /\
      (exists xops, x_run xops (x_init (length (ss_ends (co_ses c))) (pc_host (wi_cfg t)) (sx_name (wi_srv t)) (sx_id (wi_srv t))) = Some (co_rpc c, co_tr c)) /\
      server_ops (co_tr c) = wi_ops t /\ server_events (co_tr c) = wi_evs t /\ x_server (co_rpc c) = wi_state t
  | None => (exists xops r, x_run xops (x_init (length (ss_ends (co_ses c))) [] [] []) = Some (r, co_tr c) /\ x_cli r = x_cli (co_rpc c)) /\ server_ops (co_tr c) = [] /\ takes (co_tr c) = []
  end.
Proof.
  intros R N. pose proof (r_con _ _ _ (r_all _ _ R) n c N) as B. destruct (co_srv c) as [i|] eqn:CS.
  - destruct B as (t & T & B1 & B2 & B3 & B4). destruct (b_goal _ (b_all _ _ R) n c i N CS) as (t0 & T0 & M & P & RE). unfold inst in T0. rewrite T in T0. injection T0 as <-. exists t. split; [exact T|].
    split; [unfold modern in M; rewrite negb_true_iff, Z.eqb_neq in M; exact M|]. auto 10.
  - destruct B as (xops & U1 & U2 & U3 & U4). split; [|auto]. exists xops, (set_server (server0 [] [] []) (co_rpc c)). split; [exact (U1 (server0 [] [] []))|reflexivity].
Qed.
Lemma answer_all ops s n c k bs : wreach ops s -> wfits s -> con s n c -> In (XGot k bs) (co_tr c) ->
  exists i t m req ops1 ops2, co_srv c = Some i /\ inst s i t /\ In (WCall (co_proc c) (co_x c) m req) ops /\ In (XAsk k (call_bytes m req)) (co_tr c) /\
    wi_ops t = ops1 ++ MRequest (call_bytes m req) :: ops2 /\ same_place (co_tr c) k (requests ops1) /\
    let q := requests ops1 in
    let l := book ops1 m in
    if ld_known l then
      exists cb resp ret, ld_cb l = Some cb /\ returns ops2 q = [(resp, ret)] /\
        about q (wi_evs t) = [VCall q cb m (fst (ld_types l)) (snd (ld_types l)) req; VReply q bs] /\
        (i64 ret -> de_response bs = Ok (say_executed (pc_host (wi_cfg t)) (sx_name (wi_srv t)) (sx_id (wi_srv t)) m resp ret))
    else about q (wi_evs t) = [VReply q bs] /\ de_response bs = Ok (say_unknown (pc_host (wi_cfg t)) (sx_name (wi_srv t)) (sx_id (wi_srv t)) m).
Proof.
  intros R [_ F] N G. pose proof (connection_lemma _ _ _ _ R N) as CN. specialize (F n c N). destruct (co_srv c) as [i|] eqn:CS.
  - destruct CN as (t & T & _ & _ & (xops & X) & SO & SE & _). destruct (answer_lemma _ _ _ _ _ _ _ _ _ X F G) as (b & o1 & o2 & AS & _). destruct (r_ask _ _ _ (r_all _ _ R) n c N k b AS) as (m & req & W & _ & ->).
    destruct (result_lemma _ _ _ _ _ _ _ _ _ _ _ X F AS G) as (ops1 & ops2 & S1 & S2 & S3). rewrite SO in S1. rewrite SE in S3. exists i, t, m, req, ops1, ops2. split; [reflexivity|]. split; [exact T|]. split; [exact W|]. split; [exact AS|]. split; [exact S1|]. split; [exact S2|exact S3].
  - destruct CN as ((xops & r & X & _) & SO & _). destruct (answer_lemma _ _ _ _ _ _ _ _ _ X F G) as (b & o1 & o2 & _ & S1 & _). rewrite SO in S1. destruct o1; discriminate.
Qed.
Lemma nodup_fst {A B} (l : list (A * B)) a b b' : NoDup (map fst l) -> In (a, b) l -> In (a, b') l -> b = b'.
Proof.
  induction l as [|[x y] l IH]; intros ND I1 I2; [destruct I1|]. cbn in ND. inversion_clear ND as [|? ? N1 N2]. destruct I1 as [I1|I1]; destruct I2 as [I2|I2].
  - congruence.
  - injection I1 as -> ->. destruct N1. apply in_map_iff. exists (a, b'). auto.
  - injection I2 as -> ->. destruct N1. apply in_map_iff. exists (a, b). auto.
  - apply IH; auto.
Qed.
Lemma phantom_lemma ops s i t ops1 bs ops2 : wreach ops s -> wfits s -> inst s i t -> wi_ops t = ops1 ++ MRequest bs :: ops2 ->
  In (WOld i bs) ops \/
  exists n c k m req, con s n c /\ co_srv c = Some i /\ In (WCall (co_proc c) (co_x c) m req) ops /\ bs = call_bytes m req /\ In (XAsk k bs) (co_tr c) /\ same_place (co_tr c) k (requests ops1) /\
    forall n' c' b', con s n' c' -> co_srv c' = Some i -> In (XTake (requests ops1) b') (co_tr c') -> n' = n.
Proof.
  intros R [_ F] T W. destruct (r_from _ _ _ (r_all _ _ R) i t ops1 bs ops2 T W) as [(n & c & N & CS & TK)|H]; [right|left; exact H]. pose proof (connection_lemma _ _ _ _ R N) as CN. rewrite CS in CN. destruct CN as (t0 & T0 & _ & _ & (xops & X) & SO & SE & _).
  specialize (F n c N). destruct (once_lemma _ _ _ _ _ _ _ X F) as (_ & ND & _ & _ & P5 & P6). destruct (P5 (requests ops1)) as (k & SP); [apply in_map_iff; exists (requests ops1, bs); split; [reflexivity|apply in_takes, TK]|].
  destruct (P6 k _ SP) as (b' & o1 & o2 & AS & TK' & _). assert (b' = bs) by (apply (nodup_fst _ _ _ _ ND (proj2 (in_takes _ _ _) TK') (proj2 (in_takes _ _ _) TK))). subst b'.
  destruct (r_ask _ _ _ (r_all _ _ R) n c N k bs AS) as (m & req & WC & _ & EB). exists n, c, k, m, req. repeat (split; [assumption|]).
  intros n' c' b' N' CS' TK2. apply (r_one _ _ _ (r_all _ _ R) n' n c' c i (requests ops1) b' bs N' N CS' CS TK2 TK).
Qed.
Lemma twice_lemma ops s n c q b b' : wreach ops s -> wfits s -> con s n c -> same_place (co_tr c) q b -> same_place (co_tr c) q b' -> b = b'.
Proof.
  intros R [_ F] N (i & A1 & A2) (j & B1 & B2). pose proof (connection_lemma _ _ _ _ R N) as CN. specialize (F n c N).
  assert (ND : NoDup (outs (co_tr c))).
  { destruct (co_srv c) as [k|]; [destruct CN as (t & _ & _ & _ & (xops & X) & _)|destruct CN as ((xops & r & X & _) & _)]; apply (once_lemma _ _ _ _ _ _ _ X F). }
  assert (i = j); [|subst; congruence]. apply (proj1 (NoDup_nth_error _) ND); [apply nth_error_Some; congruence|congruence].
Qed.
(** ** Calls *)
Lemma amem_keys {V} (k : text) (l : list (text * V)) : amem k l = true <-> In k (map fst l).
Proof.
  unfold amem. change (map fst l) with (keys l). destruct (aget k l) as [v|] eqn:E.
  - split; [intros _; apply in_map_iff; exists (k, v); split; [reflexivity|apply aget_in, E]|reflexivity].
  - split; [discriminate|]. intros I1. apply aget_none in E. contradiction.
Qed.
Lemma targets_in r d k z : In (k, z) (cx_targets r d) -> aget k (cx_ses d) = Some z.
Proof.
  unfold cx_targets. intros I1. apply in_flat_map in I1. destruct I1 as (a & _ & I1). destruct (_ || _)%bool; [|destruct I1]. destruct (aget (ca_key a) (cx_ses d)) as [z0|] eqn:K; [|destruct I1]. destruct I1 as [X|[]]. injection X as <- <-. exact K.
Qed.
Lemma call_net p x m req s s' q d : ws_step (WCall p x m req) s = Some s' -> the_client (ws_net s) p x = Some (q, d) -> cx_name d <> [] -> m <> [] ->
  exists s1 q1 d1, ws_disc (DAt p (PCall x)) s = Some s1 /\ the_client (ws_net s1) p x = Some (q1, d1) /\ s' = ws_ask p x (cx_targets (px_reg q1) d1) (call_bytes m req) s1.
Proof.
  intros E T N1 N2. cbn [ws_step] in E. rewrite T in E. assert (Q : (is_nil (cx_name d) || is_nil m)%bool = false) by (destruct (cx_name d); [congruence|]; destruct m; [congruence|reflexivity]). rewrite Q in E.
  destruct (ws_disc _ s) as [s1|] eqn:D; [|discriminate]. destruct (the_client (ws_net s1) p x) as [[q1 d1]|] eqn:T1; [injection E as <-; eauto 10|]. exfalso.
  destruct (disc_shape _ _ _ D) as (n & ST & ->). cbn [ws_net] in T1. apply client_at in T. destruct T as [A B]. cbn [dn_step] in ST. rewrite A in ST. cbn [px_step] in ST. unfold on_cli in ST. rewrite B in ST. injection ST as <-.
  unfold the_client in T1. cbn [dn_procs] in T1. rewrite aget_aset_same in T1. cbn [px_cli with_cli] in T1. rewrite aget_aset_same in T1. discriminate.
Qed.
Lemma client_call p x s s1 q d : ws_disc (DAt p (PCall x)) s = Some s1 -> the_client (ws_net s) p x = Some (q, d) -> exists q1, the_client (ws_net s1) p x = Some (q1, cx_refresh (px_reg q) d) /\ px_reg q1 = px_reg q.
Proof.
  intros D T. destruct (disc_shape _ _ _ D) as (n & ST & ->). cbn [ws_net]. apply client_at in T. destruct T as [A B]. cbn [dn_step] in ST. rewrite A in ST. cbn [px_step] in ST. unfold on_cli in ST. rewrite B in ST. injection ST as <-.
  unfold the_client. cbn [dn_procs]. rewrite aget_aset_same. cbn [px_cli with_cli]. rewrite aget_aset_same. eexists. split; reflexivity.
Qed.
Lemma asks_lemma ops p x m req s s' c d : wreach ops s -> ws_step (WCall p x m req) s = Some s' -> SdsSpec.client_of (ws_net s) p x c d -> cx_name d <> [] -> m <> [] ->
  exists l, SdsSpec.calls (ws_net s') p x l /\
    (forall k z, In (k, z) l -> ss_proto z <> 0%Z -> exists n w w', con s' n w' /\ starts (ws_cons s) n w /\ co_open w' = true /\ co_proc w' = p /\ co_x w' = x /\ co_key w' = k /\ co_tr w' = co_tr w ++ [XCli (EvAccept (c_next (x_cli (co_rpc w)))); XAsk (c_next (x_cli (co_rpc w))) (call_bytes m req)]) /\
    (forall n w w', starts (ws_cons s) n w -> con s' n w' -> co_tr w' = co_tr w \/ (co_open w' = true /\ co_proc w' = p /\ co_x w' = x /\ In (co_key w') (map fst l))).
Proof.
  intros R E (q & A & _ & B) N1 N2. assert (T : the_client (ws_net s) p x = Some (q, d)) by (apply client_at; auto). destruct (call_net _ _ _ _ _ _ _ _ E T N1 N2) as (s1 & q1 & d1 & D & T1 & ->).
  assert (R1 : INVN (ops ++ [WCall p x m req]) s1).
  { apply (n_disc _ _ _ _ (n_more _ _ _ (n_all _ _ R)) D); [right; exists p, x; auto|apply plain_other; exact Logic.I|]. intros n' ST p' x'. apply (fsrv_keep _ _ _ _ _ (SdsProofs.reach_good _ _ (w_reach _ _ (n_all _ _ R))) ST). reflexivity. }
  assert (R' : wreach (ops ++ [WCall p x m req]) (ws_ask p x (cx_targets (px_reg q1) d1) (call_bytes m req) s1)) by (apply wreach_snoc; eauto).
  pose proof (b_stop _ (b_all _ _ R)) as BS. destruct (disc_shape _ _ _ D) as (n1 & ST & S1E).
  assert (OLD : forall n w, nth_error (ws_cons s1) n = Some w -> starts (ws_cons s) n w).
  { intros n w NW. subst s1. cbn [ws_cons] in NW. destruct (nth_new _ _ _ _ NW) as [H|[L I1]]; [left; exact H|right; split; [exact L|apply (opened_new _ _ _ _ I1)]]. }
  set (l := cx_targets (px_reg q1) d1) in *. exists l. split; [|split].
  - apply client_at in T1. destruct T1 as [A1 B1]. exists q1, d1. auto.
  - intros k z I1 PZ. pose proof (targets_in _ _ _ _ I1) as K. assert (SE : ses_at (ws_net s1) p x k = Some (cx_name d1, z)) by (unfold ses_at; rewrite T1, K; reflexivity).
    destruct (n_ses _ _ _ _ (w_con _ _ R1) _ _ _ _ _ SE) as (n & w & NW & O & E1 & E2 & E3 & E4 & E5 & E6 & E7). exists n, w.
    assert (TG : is_target p x l w = true).
    { unfold is_target. rewrite (proj2 (is_con_iff p x w)) by auto. unfold modern. rewrite E6. rewrite (proj2 (Z.eqb_neq _ _) PZ). cbn [negb andb]. apply amem_keys. rewrite E3. apply in_map_iff. exists (k, z). auto. }
    assert (SP : c_stopped (x_cli (co_rpc w)) = false) by (destruct (OLD n w NW) as [H|(_ & p0 & x0 & nm & k0 & z0 & ->)]; [apply (BS n w H O)|reflexivity]).
    eexists. split; [unfold con; cbn [ws_cons ws_ask with_cons]; rewrite nth_error_map, NW; cbn [option_map]; rewrite TG; reflexivity|]. split; [apply OLD, NW|].
    unfold co_do, co_step. cbn [x_step c_step]. rewrite SP. cbn [co_open co_set co_proc co_x co_key co_tr]. auto 10.
  - intros n w w' SW NW. unfold con in NW. cbn [ws_cons ws_ask with_cons] in NW. rewrite nth_error_map in NW. destruct (nth_error (ws_cons s1) n) as [w1|] eqn:NW1; [|discriminate]. cbn [option_map] in NW. injection NW as <-.
    assert (TE : co_tr w1 = co_tr w).
    { destruct SW as [H|(L & p0 & x0 & nm & k0 & z0 & ->)].
      - subst s1. cbn [ws_cons] in NW1. rewrite (nth_old _ _ _ _ H) in NW1. injection NW1 as <-. reflexivity.
      - destruct (OLD n w1 NW1) as [H|(_ & p1 & x1 & nm1 & k1 & z1 & ->)]; [|reflexivity]. assert (n < length (ws_cons s)) by (apply nth_error_Some; congruence). lia. }
    destruct (is_target p x l w1) eqn:TG; [|left; exact TE]. right. unfold is_target in TG. rewrite !andb_true_iff, amem_keys in TG. destruct TG as [[TG _] K]. apply is_con_iff in TG. destruct TG as (O & P & X). pose proof (co_do_ident (XCall (call_bytes m req)) w1) as [(I1 & I2 & I3 & I4 & _) O'].
    rewrite I1, I2, I4, O'. auto.
Qed.

Lemma asked_lemma ops p x m req s s' c d : wreach ops s -> ws_step (WCall p x m req) s = Some s' -> SdsSpec.client_of (ws_net s) p x c d -> cx_name d <> [] -> m <> [] ->
  exists l, SdsSpec.calls (ws_net s') p x l /\
    (forall k z, In (k, z) l -> ss_proto z <> 0%Z -> exists n w' old j, con s' n w' /\ co_open w' = true /\ co_proc w' = p /\ co_x w' = x /\ co_key w' = k /\
       co_tr w' = old ++ [XCli (EvAccept j); XAsk j (call_bytes m req)] /\ (forall w, con s n w -> old = co_tr w) /\ ((forall w, ~ con s n w) -> old = [])) /\
    (forall n w w', con s n w -> con s' n w' -> co_tr w' = co_tr w \/ (co_open w' = true /\ co_proc w' = p /\ co_x w' = x /\ In (co_key w') (map fst l))).
Proof.
  intros R E C N1 N2. destruct (asks_lemma _ _ _ _ _ _ _ _ _ R E C N1 N2) as (l & L1 & L2 & L3). exists l. split; [exact L1|]. split.
  - intros k z I1 P. destruct (L2 k z I1 P) as (n & w & w' & W & ST & O & E1 & E2 & E3 & T). exists n, w', (co_tr w). eexists. repeat (split; [eassumption|]). split.
    + intros w0 H. destruct ST as [H0|(L & _)]; [unfold con in H; congruence|]. assert (n < length (ws_cons s)) by (apply nth_error_Some; unfold con in H; congruence). lia.
    + intros H. destruct ST as [H0|(L & p0 & x0 & nm & k0 & z0 & ->)]; [destruct (H w H0)|reflexivity].
  - intros n w w' W W'. apply (L3 n w w'); [left; exact W|exact W'].
Qed.
(** ** A failed session *)
Lemma moves_failed il c c' : moves il c c' -> closed (co_rpc c) -> closed (co_rpc c') /\ outs (co_tr c') = outs (co_tr c) /\ c_next (x_cli (co_rpc c)) <= c_next (x_cli (co_rpc c')) /\
  forall k bs, In (XAsk k bs) (co_tr c') -> In (XAsk k bs) (co_tr c) \/ c_next (x_cli (co_rpc c)) <= k.
Proof.
  intros (_ & _ & [(_ & -> & ->)|[(_ & o & e & X & -> & _)|(i & t & e & _ & _ & _ & _ & _ & P & _)]]) CL.
  - split; [exact CL|]. split; [reflexivity|]. split; [lia|auto].
  - destruct (x_closed _ _ _ _ X CL) as (C1 & C2 & C3 & C4). split; [exact C1|]. split; [rewrite outs_app, C2, app_nil_r; reflexivity|]. split; [exact C3|]. intros k bs I1. apply in_app_iff in I1. destruct I1 as [I1|I1]; [auto|right; apply (C4 k bs I1)].
  - destruct CL as [F _]. congruence.
Qed.
Lemma run_failed more : forall ops s s' n c, wreach ops s -> ws_run more s = Some s' -> con s n c -> closed (co_rpc c) ->
  exists c', con s' n c' /\ closed (co_rpc c') /\ outs (co_tr c') = outs (co_tr c) /\ forall k bs, In (XAsk k bs) (co_tr c') -> In (XAsk k bs) (co_tr c) \/ c_next (x_cli (co_rpc c)) <= k.
Proof.
  induction more as [|o more IH]; intros ops s s' n c R E N CL; cbn [ws_run] in E.
  - injection E as <-. exists c. auto.
  - destruct (ws_step o s) as [s1|] eqn:ST; [|discriminate]. destruct (goes_step _ _ _ _ (n_all _ _ R) ST) as (_ & G2 & _). destruct (G2 n c N) as (c1 & N1 & M). destruct (moves_failed _ _ _ M CL) as (C1 & C2 & C3 & C4).
    assert (R1 : wreach (ops ++ [o]) s1) by (apply wreach_snoc; eauto). destruct (IH _ _ _ _ _ R1 E N1 C1) as (c' & N' & D1 & D2 & D3). exists c'. split; [exact N'|]. split; [exact D1|]. split; [congruence|].
    intros k bs I1. destruct (D3 k bs I1) as [H|H]; [apply C4, H|right; lia].
Qed.
Lemma outs_next ops s n c k : wreach ops s -> wfits s -> con s n c -> In k (outs (co_tr c)) -> k < c_next (x_cli (co_rpc c)).
Proof.
  intros R [_ F] N I1. pose proof (connection_lemma _ _ _ _ R N) as CN. specialize (F n c N).
  assert (XR : exists xops h a b r, x_run xops (x_init (length (ss_ends (co_ses c))) h a b) = Some (r, co_tr c) /\ x_cli r = x_cli (co_rpc c)).
  { destruct (co_srv c); [destruct CN as (t & _ & _ & _ & (xops & X) & _); exists xops; do 4 eexists; split; [exact X|reflexivity]|destruct CN as ((xops & r & X & Q) & _); exists xops; do 4 eexists; split; [exact X|exact Q]]. }
  destruct XR as (xops & h & a & b & r & X & Q). destruct (rpc_inv _ _ _ _ _ _ _ X F) as (h0 & g & t & IN). rewrite <- Q, <- (n_len _ _ _ _ _ _ _ _ _ IN). apply (outs_bound _ _ _ _ _ _ _ _ _ _ IN I1).
Qed.
Lemma got_out ops s n c k bs : wreach ops s -> wfits s -> con s n c -> In (XGot k bs) (co_tr c) -> In k (outs (co_tr c)).
Proof. intros R F N G. destruct (answer_all _ _ _ _ _ _ R F N G) as (i & t & m & req & o1 & o2 & _ & _ & _ & _ & _ & (j & J & _) & _). eapply nth_error_In, J. Qed.
Lemma modest_less tr e : modest (tr ++ e) -> modest tr.
Proof. intros [A B]. split; intros k bs I1; [apply (A k)|apply (B k)]; apply in_app_iff; auto. Qed.
Lemma never_lemma ops s more s' n c c' k bs : wreach ops s -> wfits s -> con s n c -> c_phase (x_cli (co_rpc c)) = PFailed -> ws_run more s = Some s' -> wfits s' -> con s' n c' ->
  In (XAsk k bs) (co_tr c') -> ~ In (XAsk k bs) (co_tr c) -> forall r, ~ In (XGot k r) (co_tr c').
Proof.
  intros R F N P E F' N' AS NA r G. assert (CL : closed (co_rpc c)). { assert (Q : pfail (x_cli (co_rpc c)) = true) by (unfold pfail; rewrite P; reflexivity). split; [exact Q|apply (b_shut _ (b_all _ _ R) n c N Q)]. }
  destruct (run_failed more _ _ _ _ _ R E N CL) as (c1 & N1 & _ & D2 & D3). unfold con in N', N1. rewrite N' in N1. injection N1 as <-. destruct (D3 _ _ AS) as [H|H]; [contradiction|].
  assert (R' : wreach (ops ++ more) s') by (unfold wreach in *; rewrite ws_run_app, R; exact E).
  pose proof (got_out _ _ _ _ _ _ R' F' N' G) as O. rewrite D2 in O. pose proof (outs_next _ _ _ _ _ R F N O). lia.
Qed.
(** ** Progress *)
Definition wstep_of (n i : nat) (o : xop) : wop := match o with XServer op => WDo i op | o => WCon n o end.
Lemma note_total c c' s n w : SdsProofs.ngood (ws_net s) -> con s n w -> exists s', ws_note c c' s = Some s' /\ con s' n w.
Proof.
  intros G N. unfold ws_note. destruct (_ && _)%bool; [|eauto]. unfold ws_disc. destruct (SdsProofs.dn_ok (DAt (co_proc c') (PFail (co_x c') (co_key c'))) (ws_net s) G) as (n1 & E & _). rewrite E. eexists. split; [reflexivity|]. apply nth_old, N.
Qed.
Lemma lift_step ops s n c i o r e : wreach ops s -> con s n c -> co_srv c = Some i -> smooth o = true -> x_step o (co_rpc c) = Some (r, e) ->
  exists s', ws_step (wstep_of n i o) s = Some s' /\ con s' n (co_set r e c).
Proof.
  intros R N CS SM X. pose proof (connection_lemma _ _ _ _ R N) as CN. rewrite CS in CN. destruct CN as (t & T & PR & _ & _ & _ & _ & SV). pose proof (SdsProofs.reach_good _ _ (w_reach _ _ (n_all _ _ R))) as G.
  assert (MO : modern c = true) by (unfold modern; rewrite negb_true_iff; apply Z.eqb_neq, PR). set (c' := co_set r e c).
  assert (CON : legal o c = true -> exists s', ws_step (WCon n o) s = Some s' /\ con s' n c').
  { intros LG. cbn [ws_step]. unfold con in N. rewrite N, LG, MO. cbn [andb]. unfold co_step. rewrite X. fold c'. set (s1 := with_cons (upd n c' (ws_cons s)) s).
    assert (N1 : con s1 n c') by (unfold con; cbn [ws_cons s1 with_cons]; rewrite nth_upd, Nat.eqb_refl, N; reflexivity).
    assert (NT : exists s', ws_note c c' s1 = Some s' /\ con s' n c') by (apply note_total; [exact G|exact N1]).
    destruct e as [|[] e']; try exact NT. rewrite CS. destruct (soft o) eqn:SF; [destruct (x_soft _ _ _ _ SF X) as (_ & _ & Q & _); discriminate|].
    destruct (x_hard _ _ _ _ SF X) as [(_ & Q & _)|(op & ev & M & _ & _ & _ & [(-> & _)|(bs0 & rest & -> & -> & Q & _)])]; [discriminate|destruct op; discriminate|]. injection Q as Q1 Q2 Q3. subst bs.
    unfold ws_perform. cbn [ws_insts s1 with_cons]. unfold inst in T. rewrite T, <- SV, M. cbn [ws_net ws_hist ws_cons with_cons].
    apply note_total; [exact G|]. unfold con. cbn [ws_cons]. rewrite nth_mapi. unfold con in N1. rewrite N1. cbn [option_map skips Nat.add]. rewrite Nat.eqb_refl, andb_false_r. reflexivity. }
  destruct o as [bs|op| | |op|]; try discriminate; cbn [wstep_of].
  - apply CON. destruct op; try discriminate. destruct ok; [reflexivity|discriminate].
  - apply CON. reflexivity.
  - apply CON. cbn. rewrite CS. reflexivity.
  - cbn [x_step] in X. destruct (serve_eff _ _ _ _ X) as (ev & M & _).
    assert (P : exists s', ws_perform None i op s = Some s' /\ con s' n c').
    { unfold ws_perform. unfold inst in T. rewrite T, <- SV, M. eexists. split; [reflexivity|]. unfold con. cbn [ws_cons]. rewrite nth_mapi. unfold con in N. rewrite N. cbn [option_map skips]. rewrite (proj2 (on_srv_iff i c) CS). cbn [negb andb]. unfold co_do, co_step. cbn [x_step]. rewrite X. reflexivity. }
    destruct op; try discriminate; exact P.
Qed.
Lemma lift_run xops : forall ops s n c i r e, wreach ops s -> con s n c -> co_srv c = Some i -> forallb smooth xops = true -> x_run xops (co_rpc c) = Some (r, e) ->
  exists more s', forallb wsmooth more = true /\ ws_run more s = Some s' /\ con s' n (co_set r e c).
Proof.
  induction xops as [|o xops IH]; intros ops s n c i r e R N CS SM X; cbn [x_run forallb] in *.
  - injection X as <- <-. exists [], s. split; [reflexivity|]. split; [reflexivity|]. unfold co_set. rewrite app_nil_r. destruct c; exact N.
  - rewrite andb_true_iff in SM. destruct SM as [SM1 SM2]. destruct (x_step o (co_rpc c)) as [[r1 e1]|] eqn:X1; [|discriminate]. destruct (x_run xops r1) as [[r2 e2]|] eqn:X2; [|discriminate]. injection X as <- <-.
    destruct (lift_step _ _ _ _ _ _ _ _ R N CS SM1 X1) as (s1 & E1 & N1). assert (R1 : wreach (ops ++ [wstep_of n i o]) s1) by (apply wreach_snoc; eauto).
    destruct (IH _ _ _ (co_set r1 e1 c) i r2 e2 R1 N1 CS SM2 X2) as (more & s' & W & E & N'). exists (wstep_of n i o :: more), s'. split.
    + cbn [forallb]. rewrite W, andb_true_r. destruct o as [bs|[]| | |[]|]; try discriminate; try reflexivity. cbn in *. exact SM1.
    + split; [cbn [ws_run]; rewrite E1; exact E|]. unfold co_set in *. cbn [co_proc co_x co_name co_key co_ses co_open co_srv co_tr] in N'. rewrite app_assoc. exact N'.
Qed.
Lemma possible_lemma ops s n c i t k : wreach ops s -> wfits s -> con s n c -> co_srv c = Some i -> inst s i t -> awaited k (co_rpc c) ->
  answerable (pc_host (wi_cfg t)) (sx_name (wi_srv t)) (sx_id (wi_srv t)) k (co_tr c) ->
  exists more s' c' bs, forallb wsmooth more = true /\ ws_run more s = Some s' /\ con s' n c' /\ In (XGot k bs) (co_tr c').
Proof.
  intros R [_ F] N CS T AW AN. pose proof (connection_lemma _ _ _ _ R N) as CN. rewrite CS in CN. destruct CN as (t0 & T0 & _ & _ & (xops & X) & _). unfold inst in T, T0. rewrite T in T0. injection T0 as <-.
  destruct (progress_lemma _ _ _ _ _ _ _ _ X (F n c N) AW AN) as (xo & r & e & bs & SM & XR & _ & G). destruct (lift_run xo _ _ _ _ _ _ _ R N CS SM XR) as (more & s' & W & E & N'). exists more, s', (co_set r e c), bs. repeat (split; [assumption|]).
  cbn [co_tr co_set]. apply in_app_iff. auto.
Qed.
