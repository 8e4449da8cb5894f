(** Proofs about service calls from end to end. *)
From Verif Require Import Base Sample PbModel SerModel SrvModel SrvSpec CliModel CliSpec FrmModel FrmSpec FrmProofs RpcModel RpcSpec.
From Verif Require CliProofs SrvProofs PbSpec SerSpec SerProofs.

Notation pre := CliProofs.pre.
Arguments frame : simpl never.
Arguments handshake_request : simpl never.
Arguments handshake_response : simpl never.
Arguments request_msg : simpl never.
Arguments response_msg : simpl never.

(** ** The client session and what it writes *)
Definition started_list (e : list cev) (c : cli) : list nat := match started e c with Some d => [d] | None => [] end.
Definition hs_written (op : cop) (c : cli) : bool := match op, c_phase c with CConnect true, PHsSend true => true | _, _ => false end.
Definition hs_good (op : cop) : bool := match op with CHsReceived HsGood => true | _ => false end.
Definition flying (f : option flight) (fl : list nat) : Prop :=
  match f with Some (Sending d true) | Some (Receiving d true) => fl = [d] | _ => True end.
Record Link (c : cli) (sent outs gotc : list nat) (h g : bool) : Prop := {
  l_fl : exists fl, outs = gotc ++ fl /\ flying (c_cur c) fl /\ (c_busy c = false -> fl = []);
  l_cur : c_busy c = false -> c_cur c = None;
  l_pre : pre (c_phase c) = true -> c_busy c = false /\ outs = [] /\ gotc = [] /\ sent = [] /\ g = false;
  l_conn : connecting (c_phase c) = true -> h = false;
  l_h : h = false -> connecting (c_phase c) = true \/ c_sock c = false;
  l_h2 : h = false -> outs = [];
  l_g : c_phase c = PConnected -> g = true;
  l_g2 : c_cur c <> None -> g = true;
  l_g3 : g = false -> gotc = [];
  l_sent : sent = outs \/ ((exists r, sent = outs ++ r) /\ c_sock c = false /\ pre (c_phase c) = false) }.
Lemma link_init n : Link (c_init n) [] [] [] false false.
Proof. constructor; cbn; auto; try discriminate; try congruence. exists []. auto. Qed.

(** Nothing happens that concerns the requests. *)
Lemma link_same c c' sent outs gotc h g : Link c sent outs gotc h g ->
  c_phase c' = c_phase c \/ (pre (c_phase c) = true /\ pre (c_phase c') = true /\ connecting (c_phase c') = connecting (c_phase c)) ->
  c_cur c' = c_cur c -> c_busy c' = c_busy c -> (c_sock c' = c_sock c \/ c_sock c' = false \/ connecting (c_phase c') = true) -> Link c' sent outs gotc h g.
Proof.
  intros [A B C D E F G H I J] P K Bu S. constructor; rewrite ?K, ?Bu; auto.
  - intros P'. apply C. destruct P as [P|P]; [congruence|tauto].
  - intros P'. apply D. destruct P as [P|(_ & _ & P)]; congruence.
  - intros P'. destruct (E P') as [E'|E']; [left; destruct P as [P|(_ & _ & P)]; congruence|].
    destruct S as [S|[S|S]]; [right; congruence|auto|auto].
  - intros P'. apply G. destruct P as [P|(_ & P & _)]; [congruence|rewrite P' in P; discriminate].
  - destruct J as [J|(J1 & J2 & J3)]; [auto|]. destruct P as [P|(P & _)]; [|congruence].
    destruct S as [S|[S|S]]; [right; rewrite P, S; auto|right; rewrite P; auto|]. right.
    rewrite P in S. destruct (c_phase c); discriminate.
Qed.
Lemma app_nil2 {A} (a : list A) : a = a ++ []. Proof. symmetry; apply app_nil_r. Qed.
(** send of a call on a session that is past the handshake, nothing in flight. *)
Lemma link_send c d sent outs gotc h g : Link c sent outs gotc h g -> c_phase c = PConnected \/ (c_phase c = PFailed /\ g = true) -> outs = gotc ->
  Link (fst (send d c)) (sent ++ sends (snd (send d c))) (outs ++ started_list (snd (send d c)) (fst (send d c))) gotc h g.
Proof.
  intros [A B C D E F G H I J] P Q. unfold send, started_list, started; cbn. destruct (c_sock c) eqn:Sk.
  - assert (Hh : h = true). { destruct h; [reflexivity|]. destruct (E eq_refl) as [E'|E']; [|congruence]. destruct P as [P|[P _]]; rewrite P in E'; discriminate. }
    subst h. constructor; cbn; auto; try discriminate.
    + exists [d]. subst outs. split; [reflexivity|]. split; [reflexivity|discriminate].
    + intros X. destruct P as [P|[P _]]; rewrite P in X; discriminate.
    + intros _. destruct P as [P|[_ P]]; auto.
    + destruct J as [->|(J1 & J2 & J3)]; [left; reflexivity|congruence].
  - rewrite app_nil_r. constructor; cbn; auto; try discriminate.
    + exists []. subst outs. rewrite app_nil_r. auto.
    + intros X. destruct P as [P|[P _]]; rewrite P in X; discriminate.
    + intros _. destruct P as [P|[_ P]]; auto.
    + right. split; [|split; [reflexivity|destruct P as [P|[P _]]; rewrite P; reflexivity]].
      destruct J as [->|((r & ->) & _)]; [exists [d]; reflexivity|exists (r ++ [d]); rewrite app_assoc; reflexivity].
Qed.
Lemma link_next c sent outs gotc h g : Link c sent outs gotc h g -> c_phase c = PConnected \/ (c_phase c = PFailed /\ g = true) -> outs = gotc -> 
  Link (fst (next c)) (sent ++ sends (snd (next c))) (outs ++ started_list (snd (next c)) (fst (next c))) gotc h g.
Proof.
  intros L P Q. unfold next. destruct (c_queue c) as [|d q].
  - cbn. unfold started_list, started; cbn. rewrite !app_nil_r. destruct L as [A B C D E F G H I J]. constructor; cbn; auto.
    + exists []. subst. rewrite app_nil_r. auto.
    + intros X. destruct P as [P|[P _]]; rewrite P in X; discriminate.
  - apply link_send; [|exact P|exact Q]. apply (link_same c); auto.
Qed.
Lemma link_loss c sent outs gotc h g : Link c sent outs gotc h g -> (exists fl, outs = gotc ++ fl) ->
  Link (fst (loss c)) (sent ++ sends (snd (loss c))) (outs ++ started_list (snd (loss c)) (fst (loss c))) gotc h g.
Proof.
  intros L (fl & Q). assert (S0 : sends (snd (loss c)) = [] /\ started_list (snd (loss c)) (fst (loss c)) = []).
  { unfold loss, started_list, started. destruct (c_phase c); cbn; auto. }
  destruct S0 as [-> ->]. rewrite !app_nil_r. destruct L as [A B C D E F G H I J].
  assert (Pf : c_phase (fst (loss c)) = PFailed) by (unfold loss; destruct (c_phase c) eqn:Ep; cbn; auto).
  assert (Cf : c_cur (fst (loss c)) = c_cur c) by (unfold loss; destruct (c_phase c); reflexivity).
  assert (Bf : c_busy (fst (loss c)) = c_busy c) by (unfold loss; destruct (c_phase c); reflexivity).
  assert (Sf : c_sock (fst (loss c)) = false) by (unfold loss; destruct (c_phase c); reflexivity).
  constructor; rewrite ?Pf, ?Cf, ?Bf, ?Sf; auto; try discriminate.
  destruct J as [J|(J1 & _)]; [left; exact J|right; auto].
Qed.
Lemma oks_next c : oks (snd (next c)) = []. Proof. unfold next. destruct (c_queue c); reflexivity. Qed.
Lemma oks_loss c : oks (snd (loss c)) = []. Proof. unfold loss. destruct (c_phase c); reflexivity. Qed.
Lemma some2 {A} (p : A * list cev) s e : Some p = Some (s, e) -> s = fst p /\ e = snd p.
Proof. intros H. injection H as ->. auto. Qed.

Lemma link_step op c c' e sent outs gotc h g : Link c sent outs gotc h g -> c_step op c = Some (c', e) ->
  Link c' (sent ++ sends e) (outs ++ started_list e c') (gotc ++ oks e) (h || hs_written op c') (g || hs_good op).
Proof.
  intros L St. assert (Lfl : exists fl, outs = gotc ++ fl) by (destruct (l_fl _ _ _ _ _ _ L) as (fl & X & _); eauto).
  destruct op as [| | |ok|ok|ok|r|ok|r|k ok|]; cbn [c_step] in St; unfold hs_written, hs_good; rewrite ?Bool.orb_false_r.
  - destruct (c_stopped c); injection St as <- <-; unfold started_list, started; cbn; rewrite !app_nil_r; [exact L|].
    eapply link_same; eauto; cbn; auto.
  - injection St as <- <-. unfold started_list, started; cbn. rewrite !app_nil_r. eapply link_same; eauto; cbn; auto.
  - destruct (c_posts c) as [|[d|] ps]; [discriminate| |].
    + destruct (c_phase c) eqn:P; try (injection St as <- <-; unfold started_list, started; cbn; rewrite !app_nil_r; eapply link_same; eauto; cbn; auto).
      destruct (c_busy c) eqn:B; [injection St as <- <-; unfold started_list, started; cbn; rewrite !app_nil_r; eapply link_same; eauto; cbn; auto|].
      apply some2 in St. destruct St as [-> ->]. replace (oks _) with (@nil nat) by reflexivity. rewrite app_nil_r.
      apply link_send; [eapply link_same; eauto; cbn; auto|left; exact P|].
      destruct (l_fl _ _ _ _ _ _ L) as (fl & -> & _ & X). rewrite (X B), app_nil_r. reflexivity.
    + destruct (c_queue c); injection St as <- <-; unfold started_list, started; cbn; rewrite !app_nil_r; eapply link_same; eauto; cbn; auto.
  - destruct (c_phase c) eqn:P; try discriminate. destruct ok; [|destruct (Nat.ltb (S i) (c_servers c))].
    + injection St as <- <-. unfold started_list, started; cbn. rewrite !app_nil_r. eapply link_same; eauto; cbn; rewrite ?P; auto.
    + injection St as <- <-. unfold started_list, started; cbn. rewrite !app_nil_r. eapply link_same; eauto; cbn; rewrite ?P; auto.
    + apply some2 in St. destruct St as [-> ->]. rewrite oks_loss, app_nil_r. apply link_loss; auto.
  - destruct (c_phase c) eqn:P; try discriminate. destruct ok; [|destruct (Nat.ltb (S i) (c_servers c))].
    + injection St as <- <-. unfold started_list, started; cbn. rewrite !app_nil_r.
      destruct L as [A B C D E F G H I J]. rewrite P in *. specialize (C eq_refl). destruct C as (C1 & C2 & C3 & C4 & C5).
      assert (Hh : h = false) by (apply D; reflexivity). subst.
      constructor; cbn; auto; try discriminate.
      * intros X. destruct (c_sock c) eqn:Sk; [cbn in X; discriminate|auto].
    + injection St as <- <-. cbn. unfold started_list, started; cbn. rewrite !app_nil_r, Bool.orb_false_r. eapply link_same; eauto; cbn; rewrite ?P; auto.
    + apply some2 in St. destruct St as [-> ->]. rewrite oks_loss, app_nil_r, Bool.orb_false_r. apply link_loss; auto.
  - destruct (c_phase c) eqn:P; try discriminate. destruct ok.
    + destruct opened; [|discriminate]. injection St as <- <-. unfold started_list, started; cbn. rewrite !app_nil_r. eapply link_same; eauto; cbn; rewrite ?P; auto.
    + apply some2 in St. destruct St as [-> ->]. rewrite oks_loss, app_nil_r. apply link_loss; auto.
  - destruct (c_phase c) eqn:P; try discriminate. destruct r.
    + destruct opened; [|discriminate]. apply some2 in St. cbn [fst snd] in St. destruct St as [-> ->].
      rewrite CliProofs.sends_app, CliProofs.oks_app, oks_next. cbn [sends oks flat_map app]. rewrite app_nil_r.
      assert (Es : forall x, started_list (EvConnected :: x) (fst (next (set_phase PConnected c))) = started_list x (fst (next (set_phase PConnected c)))) by reflexivity.
      rewrite Es. rewrite Bool.orb_true_r.
      destruct (l_pre _ _ _ _ _ _ L) as (C1 & C2 & C3 & C4 & C5); [rewrite P; reflexivity|]. subst.
      apply link_next; [|left; reflexivity|reflexivity].
      destruct L as [A B C D E F G H I J]. constructor; cbn; auto; try discriminate.
      intros X. destruct (E X) as [E'|E']; [rewrite P in E'; discriminate|auto].
    + destruct opened; [|discriminate]. apply some2 in St. destruct St as [-> ->]. rewrite oks_loss, app_nil_r, Bool.orb_false_r. apply link_loss; auto.
    + apply some2 in St. destruct St as [-> ->]. rewrite oks_loss, app_nil_r, Bool.orb_false_r. apply link_loss; auto.
  - destruct (c_cur c) as [[d o|d o]|] eqn:K; try discriminate.
    assert (Bu : c_busy c = true). { destruct (c_busy c) eqn:B; [reflexivity|]. rewrite (l_cur _ _ _ _ _ _ L B) in K. discriminate. }
    assert (Pc : pre (c_phase c) = false). { destruct (pre (c_phase c)) eqn:X; [|reflexivity]. destruct (l_pre _ _ _ _ _ _ L X). congruence. }
    assert (Gc : g = true) by (apply (l_g2 _ _ _ _ _ _ L); congruence).
    destruct ok.
    + destruct o; [|discriminate]. injection St as <- <-. unfold started_list, started; cbn. rewrite !app_nil_r.
      destruct L as [A B C D E F G H I J]. constructor; cbn; auto; try congruence.
      destruct A as (fl & A1 & A2 & A3). rewrite K in A2. cbn in A2. exists fl. subst fl. repeat split; auto. destruct (c_sock c); cbn; auto.
    + injection St as <- <-. unfold started_list, started; cbn. rewrite !app_nil_r.
      destruct L as [A B C D E F G H I J]. constructor; cbn; auto; try congruence.
      destruct A as (fl & A1 & A2 & A3). exists fl. repeat split; auto.
  - destruct (c_cur c) as [[d o|d o]|] eqn:K; try discriminate.
    assert (Bu : c_busy c = true). { destruct (c_busy c) eqn:B; [reflexivity|]. rewrite (l_cur _ _ _ _ _ _ L B) in K. discriminate. }
    assert (Pc : pre (c_phase c) = false). { destruct (pre (c_phase c)) eqn:X; [|reflexivity]. destruct (l_pre _ _ _ _ _ _ L X). congruence. }
    assert (Gc : g = true) by (apply (l_g2 _ _ _ _ _ _ L); congruence).
    assert (L' : Link (set_cur None c) sent outs gotc h g).
    { destruct L as [A B C D E F G H I J]. constructor; cbn; auto; try congruence. destruct A as (fl & A1 & A2 & A3). exists fl. repeat split; auto. }
    destruct r.
    + destruct o; [|discriminate]. apply some2 in St. cbn [fst snd] in St. destruct St as [-> ->].
      rewrite CliProofs.sends_app, CliProofs.oks_app, oks_next. cbn [sends oks flat_map app].
      assert (Es : forall x, started_list (EvAnswer d AOk :: x) (fst (next (set_cur None c))) = started_list x (fst (next (set_cur None c)))) by reflexivity.
      rewrite Es.
      assert (Q : outs = gotc ++ [d]). { destruct (l_fl _ _ _ _ _ _ L) as (fl & -> & A2 & _). rewrite K in A2. cbn in A2. subst fl. reflexivity. }
      rewrite <- Q. apply link_next; [|destruct (c_phase c) eqn:Ep; try discriminate Pc; auto|reflexivity].
      destruct L' as [A B C D E F G H I J]. constructor; cbn; auto; try congruence.
      exists []. rewrite app_nil_r. auto.
    + destruct o; [|discriminate]. apply some2 in St. cbn [fst snd] in St. destruct St as [-> ->].
      rewrite CliProofs.sends_app, CliProofs.oks_app, oks_loss. cbn [sends oks flat_map app]. rewrite app_nil_r.
      apply (link_loss (set_cur None c)); auto.
    + apply some2 in St. cbn [fst snd] in St. destruct St as [-> ->].
      rewrite CliProofs.sends_app, CliProofs.oks_app, oks_loss. cbn [sends oks flat_map app]. rewrite app_nil_r.
      apply (link_loss (set_cur None c)); auto.
  - destruct (nth_error (c_peeks c) k) as [o|]; [|discriminate]. destruct ok.
    + destruct o; [|discriminate]. injection St as <- <-. unfold started_list, started; cbn. rewrite !app_nil_r. eapply link_same; eauto; cbn; auto.
    + apply some2 in St. destruct St as [-> ->]. rewrite oks_loss, app_nil_r. apply link_loss; auto. eapply link_same; eauto; cbn; auto.
  - destruct (c_losses c); [discriminate|]. apply some2 in St. destruct St as [-> ->]. rewrite oks_loss, app_nil_r. apply link_loss; auto. eapply link_same; eauto; cbn; auto.
Qed.

(** ** The streams *)
Definition asked_of (h : bool) (l : list (list Z)) : list fmsg :=
  (if h then [handshake_request v_min v_max] else []) ++ map request_msg l.
Definition answer_of (h : bool) (l : list (list Z)) : list fmsg :=
  (if h then [handshake_response v_max] else []) ++ map response_msg l.
Definition req_of (reqs : list (list Z)) (d : nat) : list Z := nth d reqs [].
(** [M] has been written, [got] has been read, the rest is in [wire], partly in the reader. *)
Definition stream (M : list fmsg) (wire : list Z) (r : reader) (got : list fmsg) : Prop :=
  exists used, concat (map frame M) = used ++ wire /\ feed reader0 used = (r, got).
Lemma stream_write M m wire r got : stream M wire r got -> stream (M ++ [m]) (wire ++ frame m) r got.
Proof.
  intros (used & A & B). exists used. split; [|exact B]. rewrite map_app, concat_app, A. cbn. rewrite app_nil_r, app_assoc. reflexivity.
Qed.
Lemma stream_byte M b wire r r' got : stream M (b :: wire) r got -> push r b = inl r' -> stream M wire r' got.
Proof.
  intros (used & A & B) P. exists (used ++ [b]). split; [rewrite <- app_assoc; exact A|].
  rewrite feed_app, B. cbn. rewrite P. rewrite app_nil_r. reflexivity.
Qed.
Lemma stream_msg M b wire r m got : stream M (b :: wire) r got -> push r b = inr m -> all_ok M ->
  stream M wire reader0 (got ++ [m]) /\ exists M2, M = got ++ m :: M2.
Proof.
  intros (used & A & B) P O.
  assert (F : feed reader0 (used ++ [b]) = (reader0, got ++ [m])) by (rewrite feed_app, B; cbn; rewrite P; reflexivity).
  assert (C : concat (map frame M) = (used ++ [b]) ++ wire) by (rewrite <- app_assoc; exact A).
  split; [exists (used ++ [b]); auto|].
  destruct (part_lemma M [used ++ [b]] wire O) as (m1 & m2 & -> & X & _).
  { cbn. rewrite app_nil_r. exact C. }
  rewrite segments_lemma in X. cbn in X. rewrite app_nil_r, F in X. cbn in X. subst m1. exists m2. rewrite <- app_assoc. reflexivity.
Qed.
Lemma stream_prefix M wire r got : stream M wire r got -> all_ok M -> exists M2, M = got ++ M2.
Proof.
  intros (used & A & B) O. destruct (part_lemma M [used] wire O) as (m1 & m2 & -> & X & _).
  { cbn. rewrite app_nil_r. exact A. }
  rewrite segments_lemma in X. cbn in X. rewrite app_nil_r, B in X. cbn in X. subst m1. eauto.
Qed.
Lemma stream_end M r got : stream M [] r got -> all_ok M -> got = M.
Proof.
  intros (used & A & B) O. rewrite app_nil_r in A.
  assert (X := all_lemma M [used] O). rewrite segments_lemma in X. cbn in X. rewrite app_nil_r in X. specialize (X (eq_sym A)). congruence.
Qed.
Lemma ok_asked h l : Forall fits l -> all_ok (asked_of h l).
Proof.
  intros F. unfold asked_of, all_ok. apply Forall_app. split.
  - destruct h; constructor; auto. split; [split; split; vm_compute; congruence|reflexivity].
  - apply Forall_map. eapply Forall_impl; [|exact F]. intros a H. split; [split; split; vm_compute; congruence|exact H].
Qed.
Lemma ok_answer h l : Forall fits l -> all_ok (answer_of h l).
Proof.
  intros F. unfold answer_of, all_ok. apply Forall_app. split.
  - destruct h; constructor; auto. split; [split; split; vm_compute; congruence|reflexivity].
  - apply Forall_map. eapply Forall_impl; [|exact F]. intros a H. split; [split; split; vm_compute; congruence|exact H].
Qed.

(** ** The invariant *)
Definition sess_ok (t : bool) (took backed : list nat) (x : sess) : Prop :=
  match x with
  | SHandshake => t = false
  | SReading => t = true /\ took = backed
  | SBusy k => t = true /\ took = backed ++ [k]
  | SClosed => exists l, took = backed ++ l
  end.
Record INV (n : nat) (host name id : text) (s : rpc) (tr : list xev) (h g t : bool) : Prop := {
  n_run : exists cops, c_run cops (c_init n) = Some (x_cli s, client_events tr);
  n_srv : m_run (server_ops tr) (server0 host name id) = Some (x_server s, server_events tr);
  n_len : length (x_reqs s) = c_next (x_cli s);
  n_ask : forall c bs, In (XAsk c bs) tr <-> nth_error (x_reqs s) c = Some bs;
  n_link : Link (x_cli s) (sends (client_events tr)) (outs tr) (map fst (gots tr)) h g;
  n_oks : map fst (gots tr) = oks (client_events tr);
  n_up : stream (asked_of h (map (req_of (x_reqs s)) (outs tr))) (x_up s) (x_sread s) (asked_of t (map snd (takes tr)));
  n_down : stream (answer_of t (map snd (backs tr))) (x_down s) (x_cread s) (answer_of g (map snd (gots tr)));
  n_t : t = false -> takes tr = [] /\ backs tr = [];
  n_sess : sess_ok t (map fst (takes tr)) (map fst (backs tr)) (x_sess s);
  n_back : forall k bs, In (k, bs) (backs tr) -> In (VReply k bs) (server_events tr);
  n_take : forall k bs, In (k, bs) (takes tr) -> exists ops1 ops2, server_ops tr = ops1 ++ MRequest bs :: ops2 /\ k = requests ops1;
  n_nd : NoDup (map fst (takes tr)) }.

Lemma ce_app a b : client_events (a ++ b) = client_events a ++ client_events b. Proof. apply flat_map_app. Qed.
Lemma so_app a b : server_ops (a ++ b) = server_ops a ++ server_ops b. Proof. apply flat_map_app. Qed.
Lemma se_app a b : server_events (a ++ b) = server_events a ++ server_events b. Proof. apply flat_map_app. Qed.
Lemma outs_app a b : outs (a ++ b) = outs a ++ outs b. Proof. apply flat_map_app. Qed.
Lemma takes_app a b : takes (a ++ b) = takes a ++ takes b. Proof. apply flat_map_app. Qed.
Lemma backs_app a b : backs (a ++ b) = backs a ++ backs b. Proof. apply flat_map_app. Qed.
Lemma gots_app a b : gots (a ++ b) = gots a ++ gots b. Proof. apply flat_map_app. Qed.
Lemma cli_events e : client_events (map XCli e) = e /\ server_ops (map XCli e) = [] /\ server_events (map XCli e) = [] /\ outs (map XCli e) = []
  /\ takes (map XCli e) = [] /\ backs (map XCli e) = [] /\ gots (map XCli e) = [] /\ forall c bs, ~ In (XAsk c bs) (map XCli e).
Proof.
  induction e as [|x e (A & B & C & D & E & F & G & H)]; [repeat split; auto|].
  repeat split; auto; [cbn; f_equal; assumption|]. intros c bs [X|X]; [discriminate|]. exact (H c bs X).
Qed.
Lemma srv_events e : client_events (map XSrv e) = [] /\ server_ops (map XSrv e) = [] /\ server_events (map XSrv e) = e /\ outs (map XSrv e) = []
  /\ takes (map XSrv e) = [] /\ backs (map XSrv e) = [] /\ gots (map XSrv e) = [] /\ forall c bs, ~ In (XAsk c bs) (map XSrv e).
Proof.
  induction e as [|x e (A & B & C & D & E & F & G & H)]; [repeat split; auto|].
  repeat split; auto; [cbn; f_equal; assumption|]. intros c bs [X|X]; [discriminate|]. exact (H c bs X).
Qed.
Lemma c_run_snoc cops : forall s s1 e1 op s2 e2, c_run cops s = Some (s1, e1) -> c_step op s1 = Some (s2, e2) -> c_run (cops ++ [op]) s = Some (s2, e1 ++ e2).
Proof.
  induction cops as [|o cops IH]; intros s s1 e1 op s2 e2 A B; cbn in *.
  - injection A as <- <-. rewrite B. rewrite app_nil_r. reflexivity.
  - destruct (c_step o s) as [[s0 e0]|]; [|discriminate]. destruct (c_run cops s0) as [[s3 e3]|] eqn:R; [|discriminate].
    injection A as <- <-. rewrite (IH _ _ _ _ _ _ R B), app_assoc. reflexivity.
Qed.
Lemma sends_bound n c tr d : (exists cops, c_run cops (c_init n) = Some (c, tr)) -> In d (sends tr) -> d < c_next c.
Proof.
  intros (cops & R) H. apply CliProofs.init_inv in R. assert (A := CliProofs.i_order _ _ R). rewrite (CliProofs.i_acc _ _ R) in A.
  apply CliProofs.sub_prefix in A.
  assert (X : forall a b : list nat, subseq a b -> In d a -> In d b). { clear. induction 1; cbn; intuition. }
  apply (X _ _ A) in H. apply in_seq in H. lia.
Qed.
Lemma outs_sends c sent out gotc h g : Link c sent out gotc h g -> exists r, sent = out ++ r.
Proof. intros L. destruct (l_sent _ _ _ _ _ _ L) as [->|(X & _)]; [exists []; rewrite app_nil_r; reflexivity|exact X]. Qed.
Lemma outs_bound n host name id s tr h g t d : INV n host name id s tr h g t -> In d (outs tr) -> d < length (x_reqs s).
Proof.
  intros N H. rewrite (n_len _ _ _ _ _ _ _ _ _ N). apply (sends_bound n _ (client_events tr)); [exact (n_run _ _ _ _ _ _ _ _ _ N)|].
  destruct (outs_sends _ _ _ _ _ _ (n_link _ _ _ _ _ _ _ _ _ N)) as (r & ->). apply in_or_app. auto.
Qed.
Lemma fits_nil : fits []. Proof. reflexivity. Qed.
Lemma fits_reqs n host name id s tr h g t : INV n host name id s tr h g t -> modest tr -> Forall fits (map (req_of (x_reqs s)) (outs tr)).
Proof.
  intros N [M _]. apply Forall_map, Forall_forall. intros d H. apply (outs_bound _ _ _ _ _ _ _ _ _ _ N) in H.
  unfold req_of. destruct (nth_error (x_reqs s) d) as [bs|] eqn:E; [|apply nth_error_None in E; lia].
  rewrite (nth_error_nth _ _ _ E). apply (M d). apply (n_ask _ _ _ _ _ _ _ _ _ N). exact E.
Qed.
Lemma in_backs tr k bs : In (k, bs) (backs tr) <-> In (XBack k bs) tr.
Proof.
  unfold backs. rewrite in_flat_map. split.
  - intros (e & A & B). destruct e; cbn in B; try tauto. destruct B as [B|[]]. injection B as <- <-. exact A.
  - intros A. eexists; split; [exact A|]. cbn. auto.
Qed.
Lemma fits_backs tr : modest tr -> Forall fits (map snd (backs tr)).
Proof. intros [_ M]. apply Forall_map, Forall_forall. intros [k bs] H. apply in_backs in H. exact (M _ _ H). Qed.

Lemma req_of_same reqs bs l : (forall d, In d l -> d < length reqs) -> map (req_of (reqs ++ [bs])) l = map (req_of reqs) l.
Proof. intros H. apply map_ext_in. intros d D. unfold req_of. apply app_nth1. auto. Qed.

Lemma next_loss c : c_next (fst (loss c)) = c_next c. Proof. unfold loss. destruct (c_phase c); reflexivity. Qed.
Lemma next_next c : c_next (fst (next c)) = c_next c. Proof. unfold next. destruct (c_queue c); reflexivity. Qed.
Lemma next_same op c c' e : c_step op c = Some (c', e) -> op <> CCall -> c_next c' = c_next c.
Proof.
  intros St NC. destruct op as [| | |ok|ok|ok|r|ok|r|k ok|]; cbn [c_step] in St; [congruence|..];
    repeat match type of St with
    | context [match ?b with _ => _ end] => destruct b
    end; try discriminate; apply some2 in St; cbn [fst snd] in St; destruct St as [-> _]; rewrite ?next_loss, ?next_next; reflexivity.
Qed.
(** The effect of a step of the client session. *)
Definition hs_up (op : cop) (s : rpc) : rpc := if hs_written op (x_cli s) then write_up (handshake_request v_min v_max) s else s.
Lemma client_inv n host name id s0 op s' o s tr x h g t :
  INV n host name id s tr h g t ->
  x_cli s0 = x_cli s -> x_reqs s0 = x_reqs s -> x_up s0 = x_up s -> x_sread s0 = x_sread s -> x_sess s0 = x_sess s -> x_server s0 = x_server s ->
  client op s0 = Some (s', o) ->
  op <> CCall ->
  (x = [] \/ exists c bs, x = [XGot c bs]) ->
  (forall c' e, c_step op (x_cli s) = Some (c', e) -> oks e = map fst (gots x)) ->
  stream (answer_of t (map snd (backs tr))) (x_down s0) (x_cread s0) (answer_of (g || hs_good op) (map snd (gots (tr ++ x)))) ->
  INV n host name id (hs_up op s') (tr ++ x ++ o) (h || hs_written op (x_cli s')) (g || hs_good op) t.
Proof.
  intros N E1 E2 E3 E4 E5 E6 C NC X K D. unfold client in C. rewrite E1 in C.
  destruct (c_step op (x_cli s)) as [[c' e]|] eqn:St; [|discriminate]. specialize (K c' e eq_refl).
  assert (L := link_step _ _ _ _ _ _ _ _ _ (n_link _ _ _ _ _ _ _ _ _ N) St).
  unfold write_request in C. cbn [x_cli set_cli] in C.
  assert (Es : exists u, s' = Rpc c' (x_reqs s) u (x_sread s) (x_sess s) (x_down s0) (x_cread s0) (x_server s) /\ o = map XCli e ++ map XOut (started_list e c')
     /\ u = x_up s ++ concat (map frame (map request_msg (map (req_of (x_reqs s)) (started_list e c'))))).
  { unfold started_list. destruct (started e c') as [d|]; cbn in C; injection C as <- <-; eexists; split.
    - unfold write_up, set_cli; cbn. rewrite E2, E4, E5, E6. reflexivity.
    - split; [reflexivity|]. cbn. unfold req_of. rewrite E3, app_nil_r. reflexivity.
    - unfold set_cli. rewrite E2, E4, E5, E6. reflexivity.
    - split; [reflexivity|]. cbn. rewrite app_nil_r. exact E3. }
  clear C. destruct Es as (u & -> & -> & Eu). cbn [x_cli].
  destruct (cli_events e) as (A1 & A2 & A3 & A4 & A5 & A6 & A7 & A8).
  assert (O : outs (map XOut (started_list e c')) = started_list e c').
  { unfold started_list. destruct (started e c'); reflexivity. }
  assert (O2 : forall y, y = map XOut (started_list e c') -> client_events y = [] /\ server_ops y = [] /\ server_events y = [] /\ takes y = [] /\ backs y = [] /\ gots y = [] /\ forall c bs, ~ In (XAsk c bs) y).
  { intros y ->. unfold started_list. destruct (started e c'); cbn; repeat split; auto. intros c bs [Y|[]]. discriminate Y. }
  destruct (O2 _ eq_refl) as (B1 & B2 & B3 & B4 & B5 & B6 & B7). clear O2.
  assert (X2 : client_events x = [] /\ server_ops x = [] /\ server_events x = [] /\ outs x = [] /\ takes x = [] /\ backs x = [] /\ forall c bs, ~ In (XAsk c bs) x).
  { destruct X as [->|(c & bs & ->)]; cbn; repeat split; auto. intros c0 bs0 [Y|[]]. discriminate Y. }
  destruct X2 as (C1 & C2 & C3 & C4 & C5 & C6 & C7).
  set (tr' := tr ++ x ++ map XCli e ++ map XOut (started_list e c')).
  assert (P1 : client_events tr' = client_events tr ++ e) by (unfold tr'; rewrite !ce_app, A1, B1, C1, app_nil_r; reflexivity).
  assert (P2 : server_ops tr' = server_ops tr) by (unfold tr'; rewrite !so_app, A2, B2, C2, !app_nil_r; reflexivity).
  assert (P3 : server_events tr' = server_events tr) by (unfold tr'; rewrite !se_app, A3, B3, C3, !app_nil_r; reflexivity).
  assert (P4 : outs tr' = outs tr ++ started_list e c') by (unfold tr'; rewrite !outs_app, A4, O, C4; reflexivity).
  assert (P5 : takes tr' = takes tr) by (unfold tr'; rewrite !takes_app, A5, B4, C5, !app_nil_r; reflexivity).
  assert (P6 : backs tr' = backs tr) by (unfold tr'; rewrite !backs_app, A6, B5, C6, !app_nil_r; reflexivity).
  assert (P7 : gots tr' = gots (tr ++ x)) by (unfold tr'; rewrite !gots_app, A7, B6, !app_nil_r; reflexivity).
  assert (Q1 : x_cli (hs_up op (Rpc c' (x_reqs s) u (x_sread s) (x_sess s) (x_down s0) (x_cread s0) (x_server s))) = c').
  { unfold hs_up. cbn. destruct (hs_written op c'); reflexivity. }
  assert (Q : forall (T : Type) (f : rpc -> T), (forall m y, f (write_up m y) = f y) ->
     f (hs_up op (Rpc c' (x_reqs s) u (x_sread s) (x_sess s) (x_down s0) (x_cread s0) (x_server s))) = f (Rpc c' (x_reqs s) u (x_sread s) (x_sess s) (x_down s0) (x_cread s0) (x_server s))).
  { intros T f F. unfold hs_up. cbn [x_cli]. destruct (hs_written op c'); auto. }
  constructor; rewrite ?P1, ?P2, ?P3, ?P4, ?P5, ?P6, ?P7, ?Q1, ?(Q _ x_server), ?(Q _ x_reqs), ?(Q _ x_sread), ?(Q _ x_sess), ?(Q _ x_down), ?(Q _ x_cread) by reflexivity;
    cbn [x_cli x_reqs x_up x_sread x_sess x_down x_cread x_server].
  - destruct (n_run _ _ _ _ _ _ _ _ _ N) as (cops & R). exists (cops ++ [op]). eapply c_run_snoc; eauto.
  - exact (n_srv _ _ _ _ _ _ _ _ _ N).
  - rewrite (n_len _ _ _ _ _ _ _ _ _ N). symmetry. eapply next_same; eauto.
  - intros c bs. rewrite <- (n_ask _ _ _ _ _ _ _ _ _ N). unfold tr'. rewrite !in_app_iff. specialize (A8 c bs). specialize (B7 c bs). specialize (C7 c bs). tauto.
  - rewrite CliProofs.sends_app, gots_app, map_app, <- K. exact L.
  - rewrite gots_app, map_app, CliProofs.oks_app, (n_oks _ _ _ _ _ _ _ _ _ N), K. reflexivity.
  - assert (U := n_up _ _ _ _ _ _ _ _ _ N). unfold hs_up. cbn [x_cli]. unfold hs_written in *. 
    destruct (match op with CConnect true => match c_phase c' with PHsSend true => true | _ => false end | _ => false end) eqn:W.
    + cbn [x_up write_up]. destruct op; try discriminate. destruct ok; try discriminate. cbn in St.
      destruct (c_phase (x_cli s)) eqn:Ph; try discriminate. injection St as <- <-.
      assert (Hh : h = false) by (apply (l_conn _ _ _ _ _ _ (n_link _ _ _ _ _ _ _ _ _ N)); rewrite Ph; reflexivity).
      assert (Ho : outs tr = []) by (apply (l_h2 _ _ _ _ _ _ (n_link _ _ _ _ _ _ _ _ _ N)); exact Hh).
      rewrite Hh, Ho in U. cbn in U. subst u. cbn. rewrite app_nil_r, Hh, Ho. cbn. rewrite ?app_nil_r.
      apply (stream_write _ (handshake_request v_min v_max)) in U. exact U.
    + cbn [x_up]. rewrite Bool.orb_false_r. subst u. clear - U. unfold asked_of in *. rewrite !map_app, app_assoc.
      unfold started_list. destruct (started e c') as [d|]; cbn [map concat]; [|rewrite !app_nil_r; exact U].
      rewrite app_nil_r. apply stream_write. exact U.
  - exact D.
  - exact (n_t _ _ _ _ _ _ _ _ _ N).
  - exact (n_sess _ _ _ _ _ _ _ _ _ N).
  - exact (n_back _ _ _ _ _ _ _ _ _ N).
  - exact (n_take _ _ _ _ _ _ _ _ _ N).
  - exact (n_nd _ _ _ _ _ _ _ _ _ N).
Qed.

Lemma vr_requests n host name id s tr h g t : INV n host name id s tr h g t -> vr_next (x_server s) = requests (server_ops tr).
Proof. intros N. apply (SrvProofs.i_next _ _ _ _ _ _ (SrvProofs.run_inv _ _ _ _ _ _ (n_srv _ _ _ _ _ _ _ _ _ N))). Qed.
Lemma take_lt n host name id s tr h g t k : INV n host name id s tr h g t -> In k (map fst (takes tr)) -> k < requests (server_ops tr).
Proof.
  intros N H. apply in_map_iff in H. destruct H as ([k' bs] & <- & H). destruct (n_take _ _ _ _ _ _ _ _ _ N _ _ H) as (o1 & o2 & -> & ->).
  rewrite SrvProofs.requests_app. cbn. lia.
Qed.
(** The effect of a step of the server. *)
Lemma serve_inv n host name id s0 op s' o s tr x h g t :
  INV n host name id s tr h g t ->
  x_cli s0 = x_cli s -> x_reqs s0 = x_reqs s -> x_down s0 = x_down s -> x_cread s0 = x_cread s -> x_server s0 = x_server s ->
  serve op s0 = Some (s', o) ->
  (x = [] \/ (t = true /\ exists bs, op = MRequest bs /\ x = [XTake (vr_next (x_server s)) bs])) ->
  stream (asked_of h (map (req_of (x_reqs s)) (outs tr))) (x_up s0) (x_sread s0) (asked_of t (map snd (takes (tr ++ x)))) ->
  sess_ok t (map fst (takes (tr ++ x))) (map fst (backs tr)) (x_sess s0) ->
  INV n host name id s' (tr ++ x ++ o) h g t.
Proof.
  intros N E1 E2 E3 E4 E5 C X U SO. unfold serve in C. rewrite E5 in C.
  destruct (m_step op (x_server s)) as [[v e]|] eqn:St; [|discriminate].
  assert (Es : exists t' b, s' = Rpc (x_cli s) (x_reqs s) (x_up s0) (x_sread s0) t' (x_down s ++ concat (map frame (map response_msg (map snd b)))) (x_cread s) v
     /\ o = XDo op :: map XSrv e ++ map (fun p => XBack (fst p) (snd p)) b
     /\ ((b = [] /\ t' = x_sess s0) \/ exists k bs, b = [(k, bs)] /\ e = [VReply k bs] /\ x_sess s0 = SBusy k /\ t' = SReading)).
  { unfold reply in C. cbn [x_sess set_server] in C.
    assert (Def : forall y, (let (s'0, o0) := (y, @nil xev) in Some (s'0, XDo op :: map XSrv e ++ o0)) = Some (s', o) -> y = set_server v s0 ->
      exists t' b, s' = Rpc (x_cli s) (x_reqs s) (x_up s0) (x_sread s0) t' (x_down s ++ concat (map frame (map response_msg (map snd b)))) (x_cread s) v
     /\ o = XDo op :: map XSrv e ++ map (fun p => XBack (fst p) (snd p)) b
     /\ ((b = [] /\ t' = x_sess s0) \/ exists k bs, b = [(k, bs)] /\ e = [VReply k bs] /\ x_sess s0 = SBusy k /\ t' = SReading)).
    { intros y Y ->. injection Y as <- <-. exists (x_sess s0), []. split; [|auto]. unfold set_server. cbn. rewrite app_nil_r. congruence. }
    destruct (x_sess s0) as [| |k|] eqn:Sx; try (eapply Def; [exact C|reflexivity]).
    destruct e as [|[| |k' bs| |] [|]]; try (eapply Def; [exact C|reflexivity]).
    destruct (Nat.eqb k' k) eqn:Ek; [|eapply Def; [exact C|reflexivity]]. apply Nat.eqb_eq in Ek. subst k'. clear Def. injection C as <- <-.
    exists SReading, [(k, bs)]. split.
    - unfold set_sess, write_down, set_server. cbn. rewrite app_nil_r. congruence.
    - split; [reflexivity|]. right. exists k, bs. auto. }
  clear C. destruct Es as (t' & b & -> & -> & Eb).
  destruct (srv_events e) as (A1 & A2 & A3 & A4 & A5 & A6 & A7 & A8).
  assert (Bx : forall y, y = map (fun p => XBack (fst p) (snd p)) b -> client_events y = [] /\ server_ops y = [] /\ server_events y = [] /\ takes y = [] /\ backs y = b /\ gots y = [] /\ outs y = [] /\ forall c bs, ~ In (XAsk c bs) y).
  { intros y ->. destruct Eb as [(-> & _)|(k & bs & -> & _)]; cbn; repeat split; auto. intros c bs' [Y|[]]. discriminate Y. }
  destruct (Bx _ eq_refl) as (B1 & B2 & B3 & B4 & B5 & B6 & B7 & B8). clear Bx.
  assert (X2 : client_events x = [] /\ server_ops x = [] /\ server_events x = [] /\ outs x = [] /\ gots x = [] /\ backs x = [] /\ forall c bs, ~ In (XAsk c bs) x).
  { destruct X as [->|(_ & bs & _ & ->)]; cbn; repeat split; auto. intros c0 bs0 [Y|[]]. discriminate Y. }
  destruct X2 as (C1 & C2 & C3 & C4 & C5 & C6 & C7).
  change (XDo op :: map XSrv e ++ map (fun p => XBack (fst p) (snd p)) b) with ([XDo op] ++ map XSrv e ++ map (fun p => XBack (fst p) (snd p)) b).
  set (tr' := tr ++ x ++ [XDo op] ++ map XSrv e ++ map (fun p => XBack (fst p) (snd p)) b).
  assert (P1 : client_events tr' = client_events tr) by (unfold tr'; rewrite !ce_app, A1, B1, C1; cbn; rewrite ?app_nil_r; reflexivity).
  assert (P2 : server_ops tr' = server_ops tr ++ [op]) by (unfold tr'; rewrite !so_app, A2, B2, C2; reflexivity).
  assert (P3 : server_events tr' = server_events tr ++ e) by (unfold tr'; rewrite !se_app, A3, B3, C3; cbn; rewrite ?app_nil_r; reflexivity).
  assert (P4 : outs tr' = outs tr) by (unfold tr'; rewrite !outs_app, A4, B7, C4; cbn; rewrite ?app_nil_r; reflexivity).
  assert (P5 : takes tr' = takes (tr ++ x)) by (unfold tr'; rewrite !takes_app, A5, B4; cbn; rewrite ?app_nil_r; reflexivity).
  assert (P6 : backs tr' = backs tr ++ b) by (unfold tr'; rewrite !backs_app, A6, B5, C6; reflexivity).
  assert (P7 : gots tr' = gots tr) by (unfold tr'; rewrite !gots_app, A7, B6, C5; cbn; rewrite ?app_nil_r; reflexivity).
  constructor; rewrite ?P1, ?P2, ?P3, ?P4, ?P5, ?P6, ?P7; cbn [x_cli x_reqs x_up x_sread x_sess x_down x_cread x_server].
  - exact (n_run _ _ _ _ _ _ _ _ _ N).
  - eapply SrvProofs.m_run_join; [exact (n_srv _ _ _ _ _ _ _ _ _ N)|]. cbn. rewrite St. rewrite app_nil_r. reflexivity.
  - exact (n_len _ _ _ _ _ _ _ _ _ N).
  - intros c bs. rewrite <- (n_ask _ _ _ _ _ _ _ _ _ N). unfold tr'. rewrite !in_app_iff. specialize (A8 c bs). specialize (B8 c bs). specialize (C7 c bs).
    assert (~ In (XAsk c bs) [XDo op]) by (intros [Y|[]]; discriminate Y). tauto.
  - exact (n_link _ _ _ _ _ _ _ _ _ N).
  - exact (n_oks _ _ _ _ _ _ _ _ _ N).
  - exact U.
  - assert (D := n_down _ _ _ _ _ _ _ _ _ N). destruct Eb as [(-> & _)|(k & bs & -> & _)]; cbn; rewrite ?app_nil_r; [exact D|].
    unfold answer_of in *. rewrite !map_app, app_assoc. cbn [map snd]. apply stream_write. exact D.
  - intros T. destruct (n_t _ _ _ _ _ _ _ _ _ N T) as [T1 T2].
    assert (x = []) by (destruct X as [->|(X & _)]; [reflexivity|congruence]). subst x. rewrite app_nil_r in *. split; [exact T1|].
    destruct Eb as [(-> & _)|(k & bs & _ & _ & Eb & _)]; [rewrite T2; reflexivity|]. rewrite Eb in SO. destruct SO. congruence.
  - destruct Eb as [(-> & ->)|(k & bs & -> & _ & Eb & ->)]; [rewrite app_nil_r; exact SO|]. rewrite Eb in SO. cbn in SO |- *. rewrite map_app. exact SO.
  - intros k bs H. apply in_app_iff in H. rewrite in_app_iff. destruct H as [H|H]; [left; exact (n_back _ _ _ _ _ _ _ _ _ N _ _ H)|right].
    destruct Eb as [(-> & _)|(k' & bs' & -> & -> & _)]; [destruct H|]. destruct H as [H|[]]. injection H as <- <-. left. reflexivity.
  - intros k bs H. rewrite takes_app in H. apply in_app_iff in H. destruct H as [H|H].
    + destruct (n_take _ _ _ _ _ _ _ _ _ N _ _ H) as (o1 & o2 & -> & ->). exists o1, (o2 ++ [op]). rewrite <- app_assoc. auto.
    + destruct X as [->|(_ & bs' & -> & ->)]; [destruct H|]. destruct H as [H|[]]. injection H as <- <-.
      exists (server_ops tr), []. split; [reflexivity|]. eapply vr_requests; eauto.
  - rewrite takes_app, map_app. destruct X as [->|(_ & bs' & -> & ->)]; cbn; [rewrite app_nil_r; exact (n_nd _ _ _ _ _ _ _ _ _ N)|].
    apply nodup_snoc; [exact (n_nd _ _ _ _ _ _ _ _ _ N)|]. intros H. apply (take_lt _ _ _ _ _ _ _ _ _ _ N) in H.
    rewrite (vr_requests _ _ _ _ _ _ _ _ _ N) in H. lia.
Qed.

(** Steps without effect on the trace. *)
Lemma quiet_inv n host name id s s' tr h g t t' :
  INV n host name id s tr h g t -> x_cli s' = x_cli s -> x_reqs s' = x_reqs s -> x_server s' = x_server s ->
  stream (asked_of h (map (req_of (x_reqs s)) (outs tr))) (x_up s') (x_sread s') (asked_of t' (map snd (takes tr))) ->
  stream (answer_of t' (map snd (backs tr))) (x_down s') (x_cread s') (answer_of g (map snd (gots tr))) ->
  (t' = false -> takes tr = [] /\ backs tr = []) ->
  sess_ok t' (map fst (takes tr)) (map fst (backs tr)) (x_sess s') -> INV n host name id s' (tr ++ []) h g t'.
Proof.
  intros N E1 E2 E3 U D T S. rewrite app_nil_r. destruct N. constructor; rewrite ?E1, ?E2, ?E3; auto.
Qed.
Lemma hs_choice : server_choice v_min v_max (handshake_request v_min v_max) = Some v_max. Proof. reflexivity. Qed.
Lemma hs_accept : client_accepts v_min v_max (handshake_response v_max) = Some v_max. Proof. reflexivity. Qed.
Lemma sess_closed t a b x : (t = false -> a = [] /\ b = []) -> sess_ok t a b x -> exists l, a = b ++ l.
Proof.
  intros T S. destruct x; cbn in S.
  - destruct (T S) as [-> ->]. exists []. reflexivity.
  - destruct S as [_ ->]. exists []. rewrite app_nil_r. reflexivity.
  - destruct S as [_ ->]. eauto.
  - exact S.
Qed.
Lemma rpc_step n host name id s tr h g t op s' e : INV n host name id s tr h g t -> modest tr -> x_step op s = Some (s', e) ->
  exists h' g' t', INV n host name id s' (tr ++ e) h' g' t'.
Proof.
  intros N M St. assert (Fu := ok_asked h _ (fits_reqs _ _ _ _ _ _ _ _ _ N M)). assert (Fd := ok_answer t _ (fits_backs _ M)).
  destruct op as [bs|op| | |op|]; cbn [x_step] in St.
  - (* XCall *)
    cbn [c_step] in St. destruct (c_stopped (x_cli s)) eqn:Sp.
    + injection St as <- <-. exists h, g, t.
      assert (P : client_events (tr ++ [XCli EvReject]) = client_events tr ++ [EvReject]) by (rewrite ce_app; reflexivity).
      destruct N as [A B C D E F G H I J K L0 O]. constructor; rewrite ?P, ?so_app, ?se_app, ?outs_app, ?takes_app, ?backs_app, ?gots_app, ?CliProofs.sends_app, ?CliProofs.oks_app;
        cbn [client_events server_ops server_events outs takes backs gots flat_map app sends oks map]; rewrite ?app_nil_r; auto.
      * destruct A as (cops & A). exists (cops ++ [CCall]). eapply c_run_snoc; [exact A|]. cbn. rewrite Sp. reflexivity.
      * intros c b. rewrite <- D, in_app_iff. cbn. intuition discriminate.
    + injection St as <- <-. exists h, g, t.
      set (c1 := Cli _ _ _ _ _ _ _ _ _ _ _).
      assert (P : client_events (tr ++ [XCli (EvAccept (c_next (x_cli s))); XAsk (c_next (x_cli s)) bs]) = client_events tr ++ [EvAccept (c_next (x_cli s))]) by (rewrite ce_app; reflexivity).
      assert (Bo : forall d, In d (outs tr) -> d < length (x_reqs s)) by (intros d; exact (outs_bound _ _ _ _ _ _ _ _ _ d N)).
      destruct N as [A B C D E F G H I J K L0 O]. constructor; rewrite ?P, ?so_app, ?se_app, ?outs_app, ?takes_app, ?backs_app, ?gots_app, ?CliProofs.sends_app, ?CliProofs.oks_app;
        cbn [client_events server_ops server_events outs takes backs gots flat_map app sends oks map x_cli x_reqs x_up x_sread x_sess x_down x_cread x_server]; rewrite ?app_nil_r; auto.
      * destruct A as (cops & A). exists (cops ++ [CCall]). eapply c_run_snoc; [exact A|]. cbn. rewrite Sp. reflexivity.
      * rewrite app_length, C. cbn. lia.
      * intros c b. rewrite in_app_iff, D. destruct (Nat.lt_ge_cases c (length (x_reqs s))) as [Lc|Lc].
        -- rewrite nth_error_app1 by exact Lc. cbn. intuition; try discriminate. injection H1 as <- <-. lia.
        -- rewrite nth_error_app2 by exact Lc. rewrite (proj2 (nth_error_None (x_reqs s) c) Lc). cbn. split.
           ++ intros [X|[X|[X|[]]]]; try discriminate. injection X as <- <-. rewrite C, Nat.sub_diag. reflexivity.
           ++ intros X. destruct (c - length (x_reqs s)) as [|[|]] eqn:Ec; cbn in X; try discriminate. injection X as ->.
              right. right. left. f_equal. lia.
      * eapply link_same; eauto.
      * rewrite req_of_same by exact Bo. exact G.
  - (* XClient *)
    destruct (with_data op) eqn:W; [discriminate|]. destruct (client op s) as [[s1 o]|] eqn:Cl; [|discriminate].
    exists (h || hs_written op (x_cli s1))%bool, (g || hs_good op)%bool, t.
    assert (R : INV n host name id (hs_up op s1) (tr ++ [] ++ o) (h || hs_written op (x_cli s1)) (g || hs_good op) t).
    { apply (client_inv n host name id s op s1 o s tr [] h g t); auto.
      - intros ->. discriminate W.
      - intros c' e0 Sc. cbn. clear - W Sc. destruct op as [| | |ok|ok|ok|r|ok|r|k ok|]; cbn [c_step] in Sc; try discriminate W; try (destruct r; discriminate W);
          repeat match type of Sc with
          | context [match ?b with _ => _ end] => destruct b
          end; try discriminate; apply some2 in Sc; cbn [fst snd] in Sc; destruct Sc as [_ ->]; rewrite ?CliProofs.oks_app, ?oks_loss, ?oks_next; reflexivity.
      - replace (hs_good op) with false; [rewrite Bool.orb_false_r, app_nil_r; exact (n_down _ _ _ _ _ _ _ _ _ N)|].
        clear - W. destruct op; try reflexivity. destruct r; try reflexivity. discriminate W. }
    cbn [app] in R.
    assert (E : s' = hs_up op s1 /\ e = o). { unfold hs_up, hs_written. destruct op; try (injection St as <- <-; auto). destruct ok; [|injection St as <- <-; auto].
      destruct (c_phase (x_cli s1)); try (injection St as <- <-; auto). destruct opened; injection St as <- <-; auto. }
    destruct E as [-> ->]. exact R.
  - (* XClientByte *)
    destruct (x_down s) as [|b bs] eqn:Dn; [discriminate|].
    assert (D := n_down _ _ _ _ _ _ _ _ _ N). rewrite Dn in D.
    assert (Case : (c_phase (x_cli s) = PHsRecv true) \/ (c_phase (x_cli s) <> PHsRecv true /\ exists c, c_cur (x_cli s) = Some (Receiving c true))).
    { destruct (c_phase (x_cli s)) as [| | |[|]| |]; auto; right; (split; [discriminate|]); destruct (c_cur (x_cli s)) as [[?|c []]|]; try discriminate; eauto. }
    destruct Case as [Ph|(Ph & c & Cu)].
    + rewrite Ph in St. destruct (push (x_cread s) b) as [r|m] eqn:Pu.
      * injection St as <- <-. exists h, g, t. apply (quiet_inv n host name id s (read_down bs r s) tr h g t t N); try reflexivity.
        -- exact (n_up _ _ _ _ _ _ _ _ _ N).
        -- eapply stream_byte; eauto.
        -- exact (n_t _ _ _ _ _ _ _ _ _ N).
        -- exact (n_sess _ _ _ _ _ _ _ _ _ N).
      * destruct (stream_msg _ _ _ _ _ _ D Pu Fd) as [D2 (M2 & D3)].
        destruct (l_pre _ _ _ _ _ _ (n_link _ _ _ _ _ _ _ _ _ N)) as (_ & _ & G1 & _ & G2); [rewrite Ph; reflexivity|].
        assert (G3 : gots tr = []) by (destruct (gots tr); [reflexivity|discriminate G1]).
        rewrite G2, G3 in D2, D3. cbn in D2, D3.
        assert (T1 : t = true). { destruct t; [reflexivity|]. destruct (n_t _ _ _ _ _ _ _ _ _ N eq_refl) as [_ Hb]. rewrite Hb in D3. discriminate. }
        subst t. cbn in D3. injection D3 as <- _. rewrite hs_accept in St.
        exists (h || hs_written (CHsReceived HsGood) (x_cli s'))%bool, (g || hs_good (CHsReceived HsGood))%bool, true.
        apply (client_inv n host name id (read_down bs reader0 s) (CHsReceived HsGood) s' e s tr [] h g true); auto.
        -- discriminate.
        -- intros c' e0 Sc. cbn in Sc. rewrite Ph in Sc. apply some2 in Sc. cbn [fst snd] in Sc. destruct Sc as [_ ->]. rewrite CliProofs.oks_app, oks_next. reflexivity.
        -- rewrite app_nil_r, G2, G3. exact D2.
    + assert (St' : match push (x_cread s) b with
              | inl r => Some (read_down bs r s, [])
              | inr m =>
                  if Z.eqb (fm_type m) mt_service_response then
                    match client (CReceived RGood) (read_down bs reader0 s) with
                    | Some (s', o) => Some (s', XGot c (fm_pay m) :: o)
                    | None => None
                    end
                  else client (CReceived RWrongType) (read_down bs reader0 s)
              end = Some (s', e)).
      { rewrite Cu in St. destruct (c_phase (x_cli s)) as [| | |[|]| |]; try exact St. congruence. }
      clear St. destruct (push (x_cread s) b) as [r|m] eqn:Pu.
      * injection St' as <- <-. exists h, g, t. apply (quiet_inv n host name id s (read_down bs r s) tr h g t t N); try reflexivity.
        -- exact (n_up _ _ _ _ _ _ _ _ _ N).
        -- eapply stream_byte; eauto.
        -- exact (n_t _ _ _ _ _ _ _ _ _ N).
        -- exact (n_sess _ _ _ _ _ _ _ _ _ N).
      * destruct (stream_msg _ _ _ _ _ _ D Pu Fd) as [D2 (M2 & D3)].
        assert (G1 : g = true) by (apply (l_g2 _ _ _ _ _ _ (n_link _ _ _ _ _ _ _ _ _ N)); congruence). subst g.
        assert (T1 : t = true). { destruct t; [reflexivity|]. destruct (n_t _ _ _ _ _ _ _ _ _ N eq_refl) as [_ Hb]. rewrite Hb in D3. discriminate. }
        subst t. cbn in D3. injection D3 as D3.
        assert (Rm : exists bs', m = response_msg bs').
        { assert (X : In m (map response_msg (map snd (backs tr)))) by (rewrite D3; apply in_or_app; right; left; reflexivity).
          apply in_map_iff in X. destruct X as (bs' & <- & _). eauto. }
        destruct Rm as (bs' & ->). cbn [fm_type fm_pay response_msg] in St'.
        change (Z.eqb (fm_type (response_msg bs')) mt_service_response) with true in St'. cbv iota in St'. change (fm_pay (response_msg bs')) with bs' in St'.
        destruct (client (CReceived RGood) (read_down bs reader0 s)) as [[s1 o]|] eqn:Cl; [|discriminate]. injection St' as <- <-.
        exists (h || hs_written (CReceived RGood) (x_cli s1))%bool, (true || hs_good (CReceived RGood))%bool, true.
        change (tr ++ XGot c bs' :: o) with (tr ++ [XGot c bs'] ++ o).
        apply (client_inv n host name id (read_down bs reader0 s) (CReceived RGood) s1 o s tr [XGot c bs'] h true true); auto.
        -- discriminate.
        -- right. eauto.
        -- intros c' e0 Sc. cbn in Sc. rewrite Cu in Sc. apply some2 in Sc. cbn [fst snd] in Sc. destruct Sc as [_ ->]. rewrite CliProofs.oks_app, oks_next. reflexivity.
        -- rewrite gots_app, map_app. cbn [gots flat_map app map snd orb]. unfold answer_of in *. rewrite map_app, app_assoc. exact D2.
  - (* XServerByte *)
    destruct (x_up s) as [|b bs] eqn:Un; [discriminate|].
    assert (U := n_up _ _ _ _ _ _ _ _ _ N). rewrite Un in U.
    assert (So := n_sess _ _ _ _ _ _ _ _ _ N).
    destruct (x_sess s) as [| |k|] eqn:Sx; try discriminate.
    + cbn in So. subst t. destruct (push (x_sread s) b) as [r|m] eqn:Pu.
      * injection St as <- <-. exists h, g, false. apply (quiet_inv n host name id s (read_up bs r s) tr h g false false N); try reflexivity.
        -- eapply stream_byte; eauto.
        -- exact (n_down _ _ _ _ _ _ _ _ _ N).
        -- exact (n_t _ _ _ _ _ _ _ _ _ N).
        -- cbn. rewrite Sx. reflexivity.
      * destruct (stream_msg _ _ _ _ _ _ U Pu Fu) as [U2 (M2 & U3)].
        destruct (n_t _ _ _ _ _ _ _ _ _ N eq_refl) as [Ht Hb]. rewrite Ht in U2, U3. cbn in U2, U3.
        assert (Hh : h = true). { destruct h; [reflexivity|]. rewrite (l_h2 _ _ _ _ _ _ (n_link _ _ _ _ _ _ _ _ _ N) eq_refl) in U3. discriminate. }
        subst h. cbn in U3. injection U3 as <- _. rewrite hs_choice in St. injection St as <- <-. exists true, g, true.
        eapply quiet_inv; [exact N|reflexivity..| | | |].
        -- rewrite Ht. exact U2.
        -- cbn. assert (D := n_down _ _ _ _ _ _ _ _ _ N). rewrite Hb in *. cbn in *.
           change ([handshake_response v_max]) with ([] ++ [handshake_response v_max]). apply stream_write. exact D.
        -- discriminate.
        -- cbn. rewrite Ht, Hb. auto.
    + destruct So as [-> So]. destruct (push (x_sread s) b) as [r|m] eqn:Pu.
      * injection St as <- <-. exists h, g, true. apply (quiet_inv n host name id s (read_up bs r s) tr h g true true N); try reflexivity.
        -- eapply stream_byte; eauto.
        -- exact (n_down _ _ _ _ _ _ _ _ _ N).
        -- discriminate.
        -- cbn. rewrite Sx. split; auto.
      * destruct (stream_msg _ _ _ _ _ _ U Pu Fu) as [U2 (M2 & U3)].
        assert (Hh : h = true). { destruct h; [reflexivity|]. rewrite (l_h2 _ _ _ _ _ _ (n_link _ _ _ _ _ _ _ _ _ N) eq_refl) in U3. discriminate. }
        subst h. cbn in U3. injection U3 as U3.
        assert (Rm : exists bs', m = request_msg bs').
        { assert (X : In m (map request_msg (map (req_of (x_reqs s)) (outs tr)))) by (rewrite U3; apply in_or_app; right; left; reflexivity).
          apply in_map_iff in X. destruct X as (bs' & <- & _). eauto. }
        destruct Rm as (bs' & ->).
        change (Z.eqb (fm_type (request_msg bs')) mt_service_request) with true in St. cbv iota in St. change (fm_pay (request_msg bs')) with bs' in St.
        destruct (serve (MRequest bs') (set_sess (SBusy (vr_next (x_server s))) (read_up bs reader0 s))) as [[s1 o]|] eqn:Sv; [|discriminate]. injection St as <- <-.
        exists true, g, true. change (tr ++ XTake (vr_next (x_server s)) bs' :: o) with (tr ++ [XTake (vr_next (x_server s)) bs'] ++ o).
        apply (serve_inv n host name id (set_sess (SBusy (vr_next (x_server s))) (read_up bs reader0 s)) (MRequest bs') s1 o s tr [XTake (vr_next (x_server s)) bs'] true g true); auto.
        -- right. split; [reflexivity|]. eauto.
        -- rewrite takes_app, map_app. cbn [takes flat_map app map snd]. unfold asked_of in *. rewrite map_app, app_assoc. exact U2.
        -- rewrite takes_app, map_app. cbn. rewrite So. auto.
  - exists h, g, t. change (tr ++ e) with (tr ++ [] ++ e).
    apply (serve_inv n host name id s op s' e s tr [] h g t); auto; rewrite ?app_nil_r; [exact (n_up _ _ _ _ _ _ _ _ _ N)|exact (n_sess _ _ _ _ _ _ _ _ _ N)].
  - exists h, g, t. assert (X : s' = set_sess SClosed s /\ e = []) by (destruct (x_sess s); try discriminate; injection St as <- <-; auto). destruct X as [-> ->].
    eapply quiet_inv; [exact N|reflexivity..| | | |]; cbn.
    + exact (n_up _ _ _ _ _ _ _ _ _ N).
    + exact (n_down _ _ _ _ _ _ _ _ _ N).
    + exact (n_t _ _ _ _ _ _ _ _ _ N).
    + eapply sess_closed; [|exact (n_sess _ _ _ _ _ _ _ _ _ N)]. intros T. destruct (n_t _ _ _ _ _ _ _ _ _ N T) as [-> ->]. auto.
Qed.

Lemma modest_app a b : modest (a ++ b) -> modest a.
Proof. intros [A B]. split; intros x y H; [apply (A x)|apply (B x)]; apply in_or_app; auto. Qed.
Lemma rpc_init n host name id : INV n host name id (x_init n host name id) [] false false false.
Proof.
  constructor; cbn; auto; try (intros; contradiction).
  - exists []. reflexivity.
  - intros c bs. split; [contradiction|destruct c; discriminate].
  - apply link_init.
  - exists []. auto.
  - exists []. auto.
  - constructor.
Qed.
Lemma rpc_run n host name id ops : forall s tr h g t s' e, INV n host name id s tr h g t -> x_run ops s = Some (s', e) -> modest (tr ++ e) ->
  exists h' g' t', INV n host name id s' (tr ++ e) h' g' t'.
Proof.
  induction ops as [|op ops IH]; intros s tr h g t s' e N R M; cbn in R.
  - injection R as <- <-. rewrite app_nil_r. eauto.
  - destruct (x_step op s) as [[s1 e1]|] eqn:St; [|discriminate]. destruct (x_run ops s1) as [[s2 e2]|] eqn:R2; [|discriminate]. injection R as <- <-.
    assert (M1 : modest tr) by (eapply modest_app; exact M).
    destruct (rpc_step _ _ _ _ _ _ _ _ _ _ _ _ N M1 St) as (h1 & g1 & t1 & N1).
    rewrite app_assoc in *. eapply IH; eauto.
Qed.
Lemma rpc_inv n host name id ops s tr : x_run ops (x_init n host name id) = Some (s, tr) -> modest tr -> exists h g t, INV n host name id s tr h g t.
Proof. intros R M. apply (rpc_run n host name id ops _ [] _ _ _ s tr (rpc_init n host name id) R M). Qed.

Lemma layers_lemma n host name id ops s tr : x_run ops (x_init n host name id) = Some (s, tr) -> modest tr ->
  (exists cops, c_run cops (c_init n) = Some (x_cli s, client_events tr)) /\ m_run (server_ops tr) (server0 host name id) = Some (x_server s, server_events tr).
Proof. intros R M. destruct (rpc_inv _ _ _ _ _ _ _ R M) as (h & g & t & N). split; [exact (n_run _ _ _ _ _ _ _ _ _ N)|exact (n_srv _ _ _ _ _ _ _ _ _ N)]. Qed.

Lemma unmap (f : list Z -> fmsg) a b M2 : (forall x, fm_pay (f x) = x) -> map f a = map f b ++ M2 -> exists l, a = b ++ l.
Proof.
  intros F E. exists (map fm_pay M2). apply (f_equal (map fm_pay)) in E. rewrite map_app, !map_map in E.
  assert (I : forall l, map (fun x => fm_pay (f x)) l = l) by (intros l; rewrite (map_ext _ (fun x => x) F); apply map_id).
  rewrite !I in E. exact E.
Qed.
(** The requests handed over are the first ones of those written, the answers handed over the
    first ones of those written back. *)
Lemma took_lemma n host name id s tr h g t : INV n host name id s tr h g t -> modest tr -> exists l, map (req_of (x_reqs s)) (outs tr) = map snd (takes tr) ++ l.
Proof.
  intros N M. destruct (stream_prefix _ _ _ _ (n_up _ _ _ _ _ _ _ _ _ N) (ok_asked h _ (fits_reqs _ _ _ _ _ _ _ _ _ N M))) as (M2 & E).
  destruct t.
  - destruct h; [|rewrite (l_h2 _ _ _ _ _ _ (n_link _ _ _ _ _ _ _ _ _ N) eq_refl) in E; discriminate].
    cbn in E. injection E as E. apply unmap in E; [exact E|reflexivity].
  - destruct (n_t _ _ _ _ _ _ _ _ _ N eq_refl) as [-> _]. cbn. eauto.
Qed.
Lemma heard_lemma n host name id s tr h g t : INV n host name id s tr h g t -> modest tr -> exists l, map snd (backs tr) = map snd (gots tr) ++ l.
Proof.
  intros N M. destruct (stream_prefix _ _ _ _ (n_down _ _ _ _ _ _ _ _ _ N) (ok_answer t _ (fits_backs _ M))) as (M2 & E).
  destruct g.
  - destruct t; [|destruct (n_t _ _ _ _ _ _ _ _ _ N eq_refl) as [_ Hb]; rewrite Hb in E; discriminate].
    cbn in E. injection E as E. apply unmap in E; [exact E|reflexivity].
  - destruct (gots tr) eqn:G; [cbn; eauto|]. assert (X := l_g3 _ _ _ _ _ _ (n_link _ _ _ _ _ _ _ _ _ N) eq_refl). rewrite G in X. discriminate.
Qed.
Lemma replied_lemma n host name id s tr h g t : INV n host name id s tr h g t -> exists l, map fst (takes tr) = map fst (backs tr) ++ l.
Proof.
  intros N. eapply sess_closed; [|exact (n_sess _ _ _ _ _ _ _ _ _ N)]. intros T. destruct (n_t _ _ _ _ _ _ _ _ _ N T) as [-> ->]. auto.
Qed.
Lemma nth_app {A} (a b l : list A) i x : b = a ++ l -> nth_error a i = Some x -> nth_error b i = Some x.
Proof. intros -> H. rewrite nth_error_app1; [exact H|]. apply nth_error_Some. congruence. Qed.
Lemma nth_map {A B} (f : A -> B) l i y : nth_error (map f l) i = Some y -> exists x, nth_error l i = Some x /\ f x = y.
Proof. intros H. rewrite nth_error_map in H. destruct (nth_error l i); [|discriminate]. injection H as <-. eauto. Qed.
Lemma in_takes tr k bs : In (k, bs) (takes tr) <-> In (XTake k bs) tr.
Proof.
  unfold takes. rewrite in_flat_map. split.
  - intros (e & A & B). destruct e; cbn in B; try tauto. destruct B as [B|[]]. injection B as <- <-. exact A.
  - intros A. eexists; split; [exact A|]. cbn. auto.
Qed.
Lemma in_gots tr k bs : In (k, bs) (gots tr) <-> In (XGot k bs) tr.
Proof.
  unfold gots. rewrite in_flat_map. split.
  - intros (e & A & B). destruct e; cbn in B; try tauto. destruct B as [B|[]]. injection B as <- <-. exact A.
  - intros A. eexists; split; [exact A|]. cbn. auto.
Qed.
(** The request at place i among those handed over is the one of the call at place i. *)
Lemma place_lemma n host name id s tr h g t i k bs : INV n host name id s tr h g t -> modest tr -> nth_error (takes tr) i = Some (k, bs) ->
  exists c, nth_error (outs tr) i = Some c /\ In (XAsk c bs) tr.
Proof.
  intros N M H. destruct (took_lemma _ _ _ _ _ _ _ _ _ N M) as (l & E).
  assert (H1 : nth_error (map snd (takes tr)) i = Some bs) by (rewrite nth_error_map, H; reflexivity).
  apply (nth_app _ _ _ _ _ E) in H1. apply nth_map in H1. destruct H1 as (c & H1 & H2). exists c. split; [exact H1|].
  apply (n_ask _ _ _ _ _ _ _ _ _ N). assert (B := outs_bound _ _ _ _ _ _ _ _ _ c N (nth_error_In _ _ H1)).
  unfold req_of in H2. rewrite <- H2. apply nth_error_nth'. exact B.
Qed.
Lemma subseq_nodup {A} (a b : list A) : subseq a b -> NoDup b -> NoDup a.
Proof.
  assert (I : forall x y : list A, subseq x y -> incl x y). { induction 1; intros z Z; cbn in *; intuition. }
  induction 1; intros N; [constructor| |]; inversion_clear N; auto. constructor; auto. intros X. apply H0. apply (I _ _ H _ X).
Qed.
Lemma once_lemma n host name id ops s tr : x_run ops (x_init n host name id) = Some (s, tr) -> modest tr ->
  NoDup (outs tr) /\ NoDup (map fst (takes tr)) /\ prefix (outs tr) (sends (client_events tr)) /\ length (takes tr) <= length (outs tr) /\
  (forall k, In k (map fst (takes tr)) -> exists c, same_place tr c k) /\
  (forall c k, same_place tr c k -> exists bs ops1 ops2, In (XAsk c bs) tr /\ In (XTake k bs) tr /\ server_ops tr = ops1 ++ MRequest bs :: ops2 /\ k = requests ops1).
Proof.
  intros R M. destruct (rpc_inv _ _ _ _ _ _ _ R M) as (h & g & t & N).
  assert (Pf : prefix (outs tr) (sends (client_events tr))) by (apply (outs_sends _ _ _ _ _ _ (n_link _ _ _ _ _ _ _ _ _ N))).
  repeat split; auto.
  - destruct (n_run _ _ _ _ _ _ _ _ _ N) as (cops & Rc). destruct (CliProofs.order_lemma _ _ _ _ Rc) as (A & _ & _).
    assert (B := CliProofs.i_acc _ _ (CliProofs.init_inv _ _ _ _ Rc)). rewrite B in A. apply subseq_nodup in A; [|apply seq_NoDup].
    destruct Pf as (r & E). rewrite E in A. eapply nodup_app_l; eauto.
  - exact (n_nd _ _ _ _ _ _ _ _ _ N).
  - destruct (took_lemma _ _ _ _ _ _ _ _ _ N M) as (l & E). apply (f_equal (@length _)) in E. rewrite app_length, !map_length in E. lia.
  - intros k H. apply In_nth_error in H. destruct H as (i & H). assert (H0 := H). apply nth_map in H. destruct H as ([k' bs] & H & <-).
    destruct (place_lemma _ _ _ _ _ _ _ _ _ _ _ _ N M H) as (c & C & _). exists c, i. auto.
  - intros c k (i & A & B). apply nth_map in B. destruct B as ([k' bs] & B & <-).
    destruct (place_lemma _ _ _ _ _ _ _ _ _ _ _ _ N M B) as (c' & C & D). assert (c' = c) by congruence. subst c'.
    apply nth_error_In in B. destruct (n_take _ _ _ _ _ _ _ _ _ N _ _ B) as (o1 & o2 & E & F).
    exists bs, o1, o2. repeat split; auto. apply in_takes. exact B.
Qed.
(** An answer is the answer of the server to this very call. *)
Lemma got_lemma n host name id ops s tr c bs : x_run ops (x_init n host name id) = Some (s, tr) -> modest tr -> In (XGot c bs) tr ->
  exists k, same_place tr c k /\ In (VReply k bs) (server_events tr) /\ In (XBack k bs) tr.
Proof.
  intros R M H. destruct (rpc_inv _ _ _ _ _ _ _ R M) as (h & g & t & N).
  apply in_gots, In_nth_error in H. destruct H as (i & H).
  destruct (l_fl _ _ _ _ _ _ (n_link _ _ _ _ _ _ _ _ _ N)) as (fl & E1 & _).
  destruct (heard_lemma _ _ _ _ _ _ _ _ _ N M) as (l2 & E2). destruct (replied_lemma _ _ _ _ _ _ _ _ _ N) as (l3 & E3).
  assert (H1 : nth_error (map fst (gots tr)) i = Some c) by (rewrite nth_error_map, H; reflexivity). apply (nth_app _ _ _ _ _ E1) in H1.
  assert (H2 : nth_error (map snd (gots tr)) i = Some bs) by (rewrite nth_error_map, H; reflexivity). apply (nth_app _ _ _ _ _ E2) in H2.
  apply nth_map in H2. destruct H2 as ([k bs'] & H2 & X). cbn in X. subst bs'.
  assert (H3 : nth_error (map fst (backs tr)) i = Some k) by (rewrite nth_error_map, H2; reflexivity). apply (nth_app _ _ _ _ _ E3) in H3.
  exists k. split; [exists i; auto|]. apply nth_error_In in H2. split; [exact (n_back _ _ _ _ _ _ _ _ _ N _ _ H2)|apply in_backs; exact H2].
Qed.
Lemma in_about k e tr : In e tr -> of_request k e = true -> In e (about k tr).
Proof. intros A B. unfold about. apply filter_In. auto. Qed.
Lemma answer_lemma n host name id ops s tr c bs : x_run ops (x_init n host name id) = Some (s, tr) -> modest tr -> In (XGot c bs) tr ->
  exists req ops1 ops2, In (XAsk c req) tr /\ server_ops tr = ops1 ++ MRequest req :: ops2 /\
    let k := requests ops1 in
    same_place tr c k /\
    match de_request req with
    | Ok q =>
        let m := h_mname (rq_header q) in
        let l := book ops1 m in
        if ld_known l then
          exists cb resp ret, ld_cb l = Some cb /\ returns ops2 k = [(resp, ret)] /\
            about k (server_events tr) = [VCall k cb m (fst (ld_types l)) (snd (ld_types l)) (rq_request q); VReply k bs] /\
            bs = ser_response (say_executed host name id m resp ret)
        else about k (server_events tr) = [VReply k bs] /\ bs = ser_response (say_unknown host name id m)
    | _ => about k (server_events tr) = [VReply k bs] /\ bs = ser_response (say_unreadable host name id)
    end.
Proof.
  intros R M H. destruct (got_lemma _ _ _ _ _ _ _ _ _ R M H) as (k & P & V & _).
  destruct (once_lemma _ _ _ _ _ _ _ R M) as (_ & _ & _ & _ & _ & O). destruct (O _ _ P) as (req & o1 & o2 & A & B & C & D).
  exists req, o1, o2. repeat split; auto; [rewrite <- D; exact P|].
  destruct (layers_lemma _ _ _ _ _ _ _ R M) as (_ & Rs). rewrite C in Rs.
  assert (Q := SrvProofs.request_lemma _ _ _ _ _ _ _ _ Rs). cbv zeta in Q |- *. rewrite <- D in *.
  assert (V' : In (VReply k bs) (about k (server_events tr))) by (apply in_about; [exact V|cbn; apply Nat.eqb_refl]).
  destruct (de_request req) as [q| |].
  - destruct (ld_known (book o1 (h_mname (rq_header q)))) eqn:Kn.
    + destruct (ld_cb (book o1 (h_mname (rq_header q)))) as [cb|] eqn:Cb.
      * destruct Q as [(Q & _)|[(Q & _)|(resp & ret & Q1 & Q2)]]; try (rewrite Q in V'; cbn in V'; intuition discriminate).
        exists cb, resp, ret. rewrite Q2 in V'. destruct V' as [V'|[V'|[]]]; [discriminate|]. injection V' as V'.
        rewrite Q2, V'. auto.
      * destruct Q as [Q|Q]; rewrite Q in V'; cbn in V'; intuition discriminate.
    + rewrite Q in V'. destruct V' as [V'|[]]. injection V' as V'. rewrite Q, V'. auto.
  - rewrite Q in V'. destruct V' as [V'|[]]. injection V' as V'. rewrite Q, V'. auto.
  - rewrite Q in V'. destruct V' as [V'|[]]. injection V' as V'. rewrite Q, V'. auto.
Qed.

(** ** Nothing but answers arrives *)
Lemma fatal_lemma n host name id s tr h g t op s' e c : INV n host name id s tr h g t -> modest tr -> x_step op s = Some (s', e) -> ~ In (XCli (EvAnswer c AProtocol)) e.
Proof.
  intros N M St H. assert (Fd := ok_answer t _ (fits_backs _ M)).
  assert (Cl : forall op s s' o, client op s = Some (s', o) -> op <> CReceived RWrongType -> In (XCli (EvAnswer c AProtocol)) o -> False).
  { clear. intros op s s' o Cl Ne H. unfold client in Cl. destruct (c_step op (x_cli s)) as [[c1 e]|] eqn:Sc; [|discriminate].
    unfold write_request in Cl.
    assert (Hc : In (EvAnswer c AProtocol) e).
    { assert (G : forall x, In (XCli (EvAnswer c AProtocol)) (map XCli e ++ x) -> ~ In (XCli (EvAnswer c AProtocol)) x -> In (EvAnswer c AProtocol) e).
      { intros x Hx Nx. apply in_app_iff in Hx. destruct Hx as [Hx|Hx]; [|contradiction]. apply in_map_iff in Hx. destruct Hx as (y & Y & Hx). congruence. }
      destruct (started e (x_cli (set_cli c1 s))); injection Cl as _ <-; apply (G _ H); cbn; intuition discriminate. }
    clear Cl H. destruct op as [| | |ok|ok|ok|r|ok|r|k ok|]; cbn [c_step] in Sc;
      repeat match type of Sc with
      | context [match ?b with _ => _ end] => destruct b
      end; try discriminate; try congruence; apply some2 in Sc; cbn [fst snd] in Sc; destruct Sc as [_ ->];
      unfold loss, next, send in Hc;
      repeat match type of Hc with
      | context [match ?b with _ => _ end] => destruct b
      end; cbn in Hc; intuition discriminate. }
  destruct op as [bs|op| | |op|]; cbn [x_step] in St.
  - cbn [c_step] in St. destruct (c_stopped (x_cli s)); injection St as _ <-; cbn in H; intuition discriminate.
  - destruct (with_data op) eqn:W; [discriminate|]. destruct (client op s) as [[s1 o]|] eqn:C1; [|discriminate].
    assert (e = o). { destruct op; try (injection St as <- <-; auto; fail). destruct ok; [|injection St as <- <-; auto].
      destruct (c_phase (x_cli s1)); try (injection St as <- <-; auto). destruct opened; injection St as <- <-; auto. }
    subst. eapply (Cl _ _ _ _ C1); [intros ->; discriminate W|exact H].
  - destruct (x_down s) as [|b bs] eqn:Dn; [discriminate|].
    assert (D := n_down _ _ _ _ _ _ _ _ _ N). rewrite Dn in D.
    assert (Case : (c_phase (x_cli s) = PHsRecv true) \/ (c_phase (x_cli s) <> PHsRecv true /\ exists c, c_cur (x_cli s) = Some (Receiving c true))).
    { destruct (c_phase (x_cli s)) as [| | |[|]| |]; auto; right; (split; [discriminate|]); destruct (c_cur (x_cli s)) as [[?|c0 []]|]; try discriminate; eauto. }
    destruct Case as [Ph|(Ph & d & Cu)].
    + rewrite Ph in St. destruct (push (x_cread s) b) as [r|m]; [injection St as <- <-; destruct H|]. eapply Cl; [exact St|discriminate|exact H].
    + assert (St' : match push (x_cread s) b with
              | inl r => Some (read_down bs r s, [])
              | inr m =>
                  if Z.eqb (fm_type m) mt_service_response then
                    match client (CReceived RGood) (read_down bs reader0 s) with
                    | Some (s', o) => Some (s', XGot d (fm_pay m) :: o)
                    | None => None
                    end
                  else client (CReceived RWrongType) (read_down bs reader0 s)
              end = Some (s', e)).
      { rewrite Cu in St. destruct (c_phase (x_cli s)) as [| | |[|]| |]; try exact St. congruence. }
      clear St. destruct (push (x_cread s) b) as [r|m] eqn:Pu; [injection St' as <- <-; destruct H|].
      destruct (stream_msg _ _ _ _ _ _ D Pu Fd) as [D2 (M2 & D3)].
      assert (G1 : g = true) by (apply (l_g2 _ _ _ _ _ _ (n_link _ _ _ _ _ _ _ _ _ N)); congruence). subst g.
      assert (T1 : t = true). { destruct t; [reflexivity|]. destruct (n_t _ _ _ _ _ _ _ _ _ N eq_refl) as [_ Hb]. rewrite Hb in D3. discriminate. }
      subst t. cbn in D3. injection D3 as D3.
      assert (Rm : exists bs', m = response_msg bs').
      { assert (X : In m (map response_msg (map snd (backs tr)))) by (rewrite D3; apply in_or_app; right; left; reflexivity).
        apply in_map_iff in X. destruct X as (bs' & <- & _). eauto. }
      destruct Rm as (bs' & ->).
      change (Z.eqb (fm_type (response_msg bs')) mt_service_response) with true in St'. cbv iota in St'.
      destruct (client (CReceived RGood) (read_down bs reader0 s)) as [[s1 o]|] eqn:C1; [|discriminate]. injection St' as <- <-.
      destruct H as [H|H]; [discriminate|]. eapply (Cl _ _ _ _ C1); [discriminate|exact H].
  - assert (Sv : forall op s s' o, serve op s = Some (s', o) -> In (XCli (EvAnswer c AProtocol)) o -> False).
    { clear. intros op s s' o Sv H. unfold serve in Sv. destruct (m_step op (x_server s)) as [[v ev]|]; [|discriminate].
      destruct (reply ev (set_server v s)) as [s2 o2] eqn:Re. injection Sv as <- <-. destruct H as [H|H]; [discriminate|].
      apply in_app_iff in H. destruct H as [H|H]; [apply in_map_iff in H; destruct H as (y & Y & _); discriminate|].
      unfold reply in Re. repeat match type of Re with context [match ?b with _ => _ end] => destruct b end; injection Re as <- <-; cbn in H; intuition discriminate. }
    destruct (x_up s) as [|b bs]; [discriminate|]. destruct (x_sess s); try discriminate; destruct (push (x_sread s) b) as [r|m]; try (injection St as <- <-; destruct H).
    + destruct (server_choice v_min v_max m); injection St as <- <-; destruct H.
    + destruct (Z.eqb (fm_type m) mt_service_request); [|injection St as <- <-; destruct H].
      destruct (serve (MRequest (fm_pay m)) (set_sess (SBusy (vr_next (x_server s))) (read_up bs reader0 s))) as [[s1 o]|] eqn:S1; [|discriminate].
      injection St as <- <-. destruct H as [H|H]; [discriminate|]. exact (Sv _ _ _ _ S1 H).
  - unfold serve in St. destruct (m_step op (x_server s)) as [[v ev]|]; [|discriminate].
    destruct (reply ev (set_server v s)) as [s2 o2] eqn:Re. injection St as <- <-. destruct H as [H|H]; [discriminate|].
    apply in_app_iff in H. destruct H as [H|H]; [apply in_map_iff in H; destruct H as (y & Y & _); discriminate|].
    unfold reply in Re. repeat match type of Re with context [match ?b with _ => _ end] => destruct b end; injection Re as <- <-; cbn in H; intuition discriminate.
  - destruct (x_sess s); try discriminate; injection St as <- <-; destruct H.
Qed.
Lemma fatal_run n host name id ops c : forall s tr h g t s' e, INV n host name id s tr h g t -> x_run ops s = Some (s', e) -> modest (tr ++ e) ->
  ~ In (XCli (EvAnswer c AProtocol)) e.
Proof.
  induction ops as [|op ops IH]; intros s tr h g t s' e N R M; cbn in R.
  - injection R as <- <-. intros [].
  - destruct (x_step op s) as [[s1 e1]|] eqn:St; [|discriminate]. destruct (x_run ops s1) as [[s2 e2]|] eqn:R2; [|discriminate]. injection R as <- <-.
    assert (M1 : modest tr) by (eapply modest_app; exact M).
    destruct (rpc_step _ _ _ _ _ _ _ _ _ _ _ _ N M1 St) as (h1 & g1 & t1 & N1).
    rewrite in_app_iff. rewrite app_assoc in M. intros [H|H].
    + exact (fatal_lemma _ _ _ _ _ _ _ _ _ _ _ _ _ N M1 St H).
    + exact (IH _ _ _ _ _ _ _ N1 R2 M H).
Qed.
Lemma protocol_lemma n host name id ops s tr c : x_run ops (x_init n host name id) = Some (s, tr) -> modest tr -> ~ In (EvAnswer c AProtocol) (client_events tr).
Proof.
  intros R M H. apply (fatal_run n host name id ops c _ [] _ _ _ s tr (rpc_init n host name id) R M).
  unfold client_events in H. apply in_flat_map in H. destruct H as (x & A & B). destruct x; cbn in B; try tauto. destruct B as [B|[]]. subst. exact A.
Qed.

(** ** What the caller sees *)
Lemma call_read m req : fits (call_bytes m req) -> de_request (call_bytes m req) = Ok (Request (Header [] [] [] m [] 0 0) req).
Proof.
  intros F. apply SerProofs.request_rt; [|exact F]. split; vm_compute; split; congruence.
Qed.
Lemma ask_unique n host name id s tr h g t c a b : INV n host name id s tr h g t -> In (XAsk c a) tr -> In (XAsk c b) tr -> a = b.
Proof. intros N A B. apply (n_ask _ _ _ _ _ _ _ _ _ N) in A. apply (n_ask _ _ _ _ _ _ _ _ _ N) in B. congruence. Qed.
Lemma result_lemma n host name id ops s tr c m req bs : x_run ops (x_init n host name id) = Some (s, tr) -> modest tr ->
  In (XAsk c (call_bytes m req)) tr -> In (XGot c bs) tr ->
  exists ops1 ops2, server_ops tr = ops1 ++ MRequest (call_bytes m req) :: ops2 /\
    let k := requests ops1 in
    let l := book ops1 m in
    same_place tr c k /\
    if ld_known l then
      exists cb resp ret, ld_cb l = Some cb /\ returns ops2 k = [(resp, ret)] /\
        about k (server_events tr) = [VCall k cb m (fst (ld_types l)) (snd (ld_types l)) req; VReply k bs] /\
        (PbSpec.i64 ret -> de_response bs = Ok (say_executed host name id m resp ret))
    else about k (server_events tr) = [VReply k bs] /\ de_response bs = Ok (say_unknown host name id m).
Proof.
  intros R M A H. destruct (answer_lemma _ _ _ _ _ _ _ _ _ R M H) as (req' & o1 & o2 & A' & C & P & Q).
  destruct (rpc_inv _ _ _ _ _ _ _ R M) as (h & g & t & N).
  assert (req' = call_bytes m req) by (eapply ask_unique; eauto). subst req'.
  assert (Fb : fits bs). { destruct (got_lemma _ _ _ _ _ _ _ _ _ R M H) as (k & _ & _ & X). destruct M as [_ M]. exact (M _ _ X). }
  exists o1, o2. split; [exact C|]. cbv zeta in *. split; [exact P|].
  rewrite (call_read m req) in Q by (destruct M as [M _]; exact (M _ _ A)). cbn in Q.
  destruct (ld_known (book o1 m)).
  - destruct Q as (cb & resp & ret & Q1 & Q2 & Q3 & Q4). exists cb, resp, ret. repeat split; auto. intros I. rewrite Q4 in *. apply SrvProofs.read_executed; [exact I|exact Fb].
  - destruct Q as [Q1 Q2]. split; [exact Q1|]. rewrite Q2 in *. apply SrvProofs.read_unknown. exact Fb.
Qed.

(** ** Without losses the answer arrives *)
Lemma x_run_app a : forall b s s1 e1 s2 e2, x_run a s = Some (s1, e1) -> x_run b s1 = Some (s2, e2) -> x_run (a ++ b) s = Some (s2, e1 ++ e2).
Proof.
  induction a as [|op a IH]; intros b s s1 e1 s2 e2 A B; cbn in *.
  - injection A as <- <-. exact B.
  - destruct (x_step op s) as [[s0 e0]|]; [|discriminate]. destruct (x_run a s0) as [[s3 e3]|] eqn:R; [|discriminate]. injection A as <- <-.
    rewrite (IH _ _ _ _ _ _ R B), app_assoc. reflexivity.
Qed.
Definition unreplied (s : rpc) (tr : list xev) : Prop := forall k bs, x_sess s = SBusy k -> ~ In (VReply k bs) (server_events tr).
(** A step of the server has at most one event. *)
Lemma one_event op s v e : m_step op s = Some (v, e) -> e = [] \/ exists x, e = [x].
Proof.
  unfold m_step. destruct (vr_dead s); [discriminate|]. intros H. destruct op; cbn in H;
    repeat match type of H with context [match ?b with _ => _ end] => destruct b end; try discriminate; injection H as _ <-; eauto.
Qed.
Lemma serve_unreplied op s s' o tr : serve op s = Some (s', o) -> unreplied s tr -> unreplied s' (tr ++ o).
Proof.
  unfold serve. destruct (m_step op (x_server s)) as [[v e]|] eqn:St; [|discriminate]. intros C U k bs Sk H.
  destruct (reply e (set_server v s)) as [s2 o2] eqn:Re. injection C as <- <-. rewrite se_app in H. apply in_app_iff in H.
  assert (G : server_events (XDo op :: map XSrv e ++ o2) = e).
  { change (XDo op :: map XSrv e ++ o2) with ([XDo op] ++ map XSrv e ++ o2). rewrite !se_app. destruct (srv_events e) as (_ & _ & -> & _). cbn.
    unfold reply in Re. repeat match type of Re with context [match ?b with _ => _ end] => destruct b end; injection Re as <- <-; cbn; rewrite ?app_nil_r; reflexivity. }
  rewrite G in H. unfold reply in Re. cbn [x_sess set_server] in Re.
  destruct (x_sess s) as [| |k0|] eqn:Sx; try (injection Re as <- <-; cbn in Sk; congruence).
  destruct (one_event _ _ _ _ St) as [->|(x & ->)].
  - injection Re as <- <-. cbn in Sk. destruct H as [H|[]]. apply (U k bs); congruence.
  - destruct x as [| |k' bs'| |]; try (injection Re as <- <-; cbn in Sk; destruct H as [H|[H|[]]]; [apply (U k bs); congruence|discriminate]).
    destruct (Nat.eqb k' k0) eqn:Ek; injection Re as <- <-; cbn in Sk; [discriminate|].
    rewrite Sx in Sk. injection Sk as ->. apply Nat.eqb_neq in Ek. destruct H as [H|[H|[]]]; [apply (U k bs); congruence|injection H as -> ->; congruence].
Qed.
Lemma client_server op s s' o : client op s = Some (s', o) -> x_sess s' = x_sess s /\ server_events o = [].
Proof.
  unfold client. destruct (c_step op (x_cli s)) as [[c e]|]; [|discriminate]. unfold write_request. destruct (cli_events e) as (_ & _ & A & _).
  destruct (started e (x_cli (set_cli c s))); intros H; injection H as <- <-; cbn; rewrite ?se_app, ?A; auto.
Qed.
Lemma step_unreplied n host name id s tr h g t op s' e : INV n host name id s tr h g t -> x_step op s = Some (s', e) -> unreplied s tr -> unreplied s' (tr ++ e).
Proof.
  intros N St U. destruct op as [bs|op| | |op|]; cbn [x_step] in St.
  - cbn [c_step] in St. destruct (c_stopped (x_cli s)); injection St as <- <-; intros k b Sk H; rewrite se_app in H; cbn in H; rewrite app_nil_r in H; exact (U k b Sk H).
  - destruct (with_data op); [discriminate|]. destruct (client op s) as [[s1 o]|] eqn:C1; [|discriminate]. destruct (client_server _ _ _ _ C1) as [A B].
    assert (E : x_sess s' = x_sess s /\ e = o). { destruct op; try (injection St as <- <-; auto; fail). destruct ok; [|injection St as <- <-; auto].
      destruct (c_phase (x_cli s1)); try (injection St as <- <-; auto; fail). destruct opened; injection St as <- <-; auto. }
    destruct E as [E ->]. intros k b Sk H. rewrite se_app, B, app_nil_r in H. apply (U k b); congruence.
  - destruct (x_down s) as [|b bs]; [discriminate|].
    assert (G : x_sess s' = x_sess s /\ server_events e = []).
    { destruct (c_phase (x_cli s)) as [| | |[|]| |]; destruct (c_cur (x_cli s)) as [[?|c0 []]|]; try discriminate;
      (destruct (push (x_cread s) b) as [r|m]; [injection St as <- <-; auto|]);
      try (apply client_server in St; exact St);
      (destruct (Z.eqb (fm_type m) mt_service_response); [|apply client_server in St; exact St]);
      (destruct (client (CReceived RGood) (read_down bs reader0 s)) as [[s1 o]|] eqn:C1; [|discriminate]);
      apply client_server in C1; injection St as <- <-; exact C1. }
    destruct G as [A B]. intros k b' Sk H. rewrite se_app, B, app_nil_r in H. apply (U k b'); congruence.
  - destruct (x_up s) as [|b bs]; [discriminate|]. destruct (x_sess s) eqn:Sx; try discriminate; destruct (push (x_sread s) b) as [r|m].
    + injection St as <- <-. intros k b' Sk. cbn in Sk. congruence.
    + destruct (server_choice v_min v_max m); injection St as <- <-; intros k b' Sk; cbn in Sk; discriminate.
    + injection St as <- <-. intros k b' Sk. cbn in Sk. congruence.
    + destruct (Z.eqb (fm_type m) mt_service_request); [|injection St as <- <-; intros k b' Sk; cbn in Sk; discriminate].
      destruct (serve (MRequest (fm_pay m)) (set_sess (SBusy (vr_next (x_server s))) (read_up bs reader0 s))) as [[s1 o]|] eqn:S1; [|discriminate].
      injection St as <- <-. apply (serve_unreplied _ _ _ _ tr) in S1.
      * intros k b' Sk H. rewrite se_app in H. apply (S1 k b' Sk). rewrite se_app. exact H.
      * intros k9 b' Sk H. cbn in Sk. injection Sk as <-.
        destruct (SrvProofs.i_fresh _ _ _ _ _ _ (SrvProofs.run_inv _ _ _ _ _ _ (n_srv _ _ _ _ _ _ _ _ _ N)) (vr_next (x_server s)) (le_n _)) as (_ & Ab & _).
        assert (X := in_about (vr_next (x_server s)) _ _ H (Nat.eqb_refl _)). rewrite Ab in X. destruct X.
  - eapply serve_unreplied; eauto.
  - destruct (x_sess s); try discriminate; injection St as <- <-; intros k9 b Sk; cbn in Sk; discriminate.
Qed.
Lemma run_unreplied n host name id ops : forall s tr h g t s' e, INV n host name id s tr h g t -> unreplied s tr -> x_run ops s = Some (s', e) -> modest (tr ++ e) ->
  unreplied s' (tr ++ e).
Proof.
  induction ops as [|op ops IH]; intros s tr h g t s' e N U R M; cbn in R.
  - injection R as <- <-. rewrite app_nil_r. exact U.
  - destruct (x_step op s) as [[s1 e1]|] eqn:St; [|discriminate]. destruct (x_run ops s1) as [[s2 e2]|] eqn:R2; [|discriminate]. injection R as <- <-.
    assert (M1 : modest tr) by (eapply modest_app; exact M).
    destruct (rpc_step _ _ _ _ _ _ _ _ _ _ _ _ N M1 St) as (h1 & g1 & t1 & N1).
    rewrite app_assoc in *. eapply IH; eauto. eapply step_unreplied; eauto.
Qed.

Lemma some_pair_msg a b : Some (request_msg a) = Some (request_msg b) -> a = b.
Proof. intros H. injection H as H. exact H. Qed.
Lemma take_step s b bs req : x_up s = b :: bs -> x_sess s = SReading -> push (x_sread s) b = inr (request_msg req) ->
  x_step XServerByte s = match serve (MRequest req) (set_sess (SBusy (vr_next (x_server s))) (read_up bs reader0 s)) with
                         | Some (s', o) => Some (s', XTake (vr_next (x_server s)) req :: o) | None => None end.
Proof. intros A B C. cbn [x_step]. rewrite A, B, C. reflexivity. Qed.
Lemma serve_step op s v e : m_step op (x_server s) = Some (v, e) -> serve op s = let (s', o) := reply e (set_server v s) in Some (s', XDo op :: map XSrv e ++ o).
Proof. intros A. unfold serve. rewrite A. reflexivity. Qed.
(** What a request does at once. *)
Lemma request_step s req : vr_dead s = false -> exists v, vr_dead v = false /\
  (m_step (MRequest req) s = Some (v, []) \/
   (exists m, names m req = true /\ m_step (MRequest req) s = Some (v, [VReply (vr_next s) (ser_response (say_unknown (vr_host s) (vr_name s) (vr_id s) m))])) \/
   m_step (MRequest req) s = Some (v, [VReply (vr_next s) (ser_response (say_unreadable (vr_host s) (vr_name s) (vr_id s)))])).
Proof.
  intros D. unfold m_step. rewrite D. destruct (de_request req) as [q| |] eqn:Q.
  - cbv zeta. destruct (aget (h_mname (rq_header q)) (vr_methods s)).
    + eexists. split; [|left; reflexivity]. exact D.
    + eexists. split; [|right; left; exists (h_mname (rq_header q)); split; [|reflexivity]]; [exact D|].
      rewrite (SrvProofs.names_ok _ _ _ Q). apply eqb_refl.
  - eexists. split; [|right; right; reflexivity]. exact D.
  - eexists. split; [|right; right; reflexivity]. exact D.
Qed.
Section Progress.
Context (n : nat) (host name id : text).
Notation "'ok' s tr" := (exists h g t, INV n host name id s tr h g t) (at level 10, s at level 9, tr at level 9).

Lemma modest_snoc a b : modest a -> (forall c bs, ~ In (XAsk c bs) b) -> (forall k bs, In (XBack k bs) b -> fits bs) -> modest (a ++ b).
Proof.
  intros [A B] C D. split; intros x y H; apply in_app_iff in H; destruct H as [H|H]; eauto. exfalso. exact (C _ _ H).
Qed.
(** Counting while call c is awaited. *)
Lemma counts s tr h g t c : INV n host name id s tr h g t -> modest tr -> (c_cur (x_cli s) = Some (Sending c true) \/ c_cur (x_cli s) = Some (Receiving c true)) ->
  outs tr = map fst (gots tr) ++ [c] /\ length (gots tr) <= length (backs tr) <= length (takes tr) /\ length (takes tr) <= S (length (gots tr)) /\ t = true.
Proof.
  intros N M C. destruct (l_fl _ _ _ _ _ _ (n_link _ _ _ _ _ _ _ _ _ N)) as (fl & E1 & E2 & _).
  assert (fl = [c]) by (destruct C as [C|C]; rewrite C in E2; exact E2). subst fl.
  destruct (took_lemma _ _ _ _ _ _ _ _ _ N M) as (l1 & F1). destruct (heard_lemma _ _ _ _ _ _ _ _ _ N M) as (l2 & F2).
  destruct (replied_lemma _ _ _ _ _ _ _ _ _ N) as (l3 & F3).
  apply (f_equal (@length _)) in F1, F2, F3. rewrite app_length, !map_length in F1, F2, F3.
  rewrite E1, app_length, map_length in F1. cbn in F1. repeat split; try lia; auto.
  assert (G : g = true) by (apply (l_g2 _ _ _ _ _ _ (n_link _ _ _ _ _ _ _ _ _ N)); destruct C; congruence).
  destruct t; [reflexivity|]. exfalso. destruct (n_t _ _ _ _ _ _ _ _ _ N eq_refl) as [_ Hb].
  destruct (stream_prefix _ _ _ _ (n_down _ _ _ _ _ _ _ _ _ N) (ok_answer false _ (fits_backs _ M))) as (M2 & E). rewrite Hb, G in E. discriminate.
Qed.
(** The request on place |gots| is the one of c. *)
Lemma place_c s tr h g t c i k bs : INV n host name id s tr h g t -> modest tr -> (c_cur (x_cli s) = Some (Sending c true) \/ c_cur (x_cli s) = Some (Receiving c true)) ->
  nth_error (takes tr) i = Some (k, bs) -> i = length (gots tr) -> In (XAsk c bs) tr.
Proof.
  intros N M C H ->. destruct (counts _ _ _ _ _ _ N M C) as (E & _). destruct (place_lemma _ _ _ _ _ _ _ _ _ _ _ _ N M H) as (c' & A & B).
  rewrite E, nth_error_app2 in A by (rewrite map_length; auto). rewrite map_length, Nat.sub_diag in A. cbn in A. injection A as <-. exact B.
Qed.
Lemma server_id s tr h g t : INV n host name id s tr h g t -> vr_host (x_server s) = host /\ vr_name (x_server s) = name /\ vr_id (x_server s) = id.
Proof. intros N. destruct (SrvProofs.run_inv _ _ _ _ _ _ (n_srv _ _ _ _ _ _ _ _ _ N)). auto. Qed.

(** Stage 1: the request is read. *)
Lemma stage1 c len : forall s tr h g t, length (x_up s) <= len -> INV n host name id s tr h g t -> modest tr ->
  (c_cur (x_cli s) = Some (Sending c true) \/ c_cur (x_cli s) = Some (Receiving c true)) ->
  x_sess s = SReading -> vr_dead (x_server s) = false -> length (takes tr) < length (outs tr) -> answerable host name id c tr ->
  exists ops' s' e, forallb smooth ops' = true /\ x_run ops' s = Some (s', e) /\ x_cli s' = x_cli s /\ modest (tr ++ e) /\ vr_dead (x_server s') = false /\
    length (takes (tr ++ e)) = length (outs (tr ++ e)) /\ x_sess s' <> SClosed /\ callable (server_ops (tr ++ e)).
Proof.
  induction len as [|len IH]; intros s tr h g t L N M C Sx De Lt An.
  - destruct (x_up s) eqn:Up; [|cbn in L; lia]. exfalso. assert (U := n_up _ _ _ _ _ _ _ _ _ N). rewrite Up in U.
    apply stream_end in U; [|apply ok_asked; eapply fits_reqs; eauto].
    destruct (counts _ _ _ _ _ _ N M C) as (E & _ & _ & T). subst t.
    assert (Hh : h = true). { destruct h; [reflexivity|]. rewrite (l_h2 _ _ _ _ _ _ (n_link _ _ _ _ _ _ _ _ _ N) eq_refl) in Lt. cbn in Lt. lia. }
    subst h. apply (f_equal (@length _)) in U. cbn in U. rewrite !map_length in U. lia.
  - destruct (x_up s) as [|b bs] eqn:Up.
    { apply (IH s tr h g t); auto. rewrite Up. cbn. lia. }
    destruct (push (x_sread s) b) as [r|m] eqn:Pu.
    + assert (St : x_step XServerByte s = Some (read_up bs r s, [])) by (cbn; rewrite Up, Sx, Pu; reflexivity).
      destruct (rpc_step _ _ _ _ _ _ _ _ _ _ _ _ N M St) as (h1 & g1 & t1 & N1). rewrite app_nil_r in N1.
      destruct (IH (read_up bs r s) tr h1 g1 t1) as (ops' & s' & e & A1 & A2 & A3 & A4 & A5 & A6 & A7 & A8); auto.
      { cbn in L |- *. lia. }
      exists (XServerByte :: ops'), s', e. split; [exact A1|]. split; [cbn [x_run]; rewrite St, A2; reflexivity|]. tauto.
    + assert (U := n_up _ _ _ _ _ _ _ _ _ N). rewrite Up in U.
      destruct (stream_msg _ _ _ _ _ _ U Pu (ok_asked h _ (fits_reqs _ _ _ _ _ _ _ _ _ N M))) as [_ (M2 & U3)].
      destruct (counts _ _ _ _ _ _ N M C) as (E & Ct1 & Ct2 & T). subst t.
      assert (Hh : h = true). { destruct h; [reflexivity|]. rewrite (l_h2 _ _ _ _ _ _ (n_link _ _ _ _ _ _ _ _ _ N) eq_refl) in Lt. cbn in Lt. lia. }
      subst h. cbn in U3. injection U3 as U3.
      assert (Rm : exists req, m = request_msg req).
      { assert (X : In m (map request_msg (map (req_of (x_reqs s)) (outs tr)))) by (rewrite U3; apply in_or_app; right; left; reflexivity).
        apply in_map_iff in X. destruct X as (req & <- & _). eauto. }
      destruct Rm as (req & ->).
      (* the request is the one of c *)
      assert (Lg : length (takes tr) = length (gots tr)). { rewrite E, app_length, map_length in Lt. cbn in Lt. lia. }
      assert (Ac : In (XAsk c req) tr).
      { apply (n_ask _ _ _ _ _ _ _ _ _ N).
        assert (X : nth_error (map request_msg (map (req_of (x_reqs s)) (outs tr))) (length (takes tr)) = Some (request_msg req)).
        { rewrite U3, nth_error_app2 by (rewrite !map_length; auto). rewrite !map_length, Nat.sub_diag. reflexivity. }
        rewrite map_map, nth_error_map, E, nth_error_app2 in X by (rewrite map_length; lia).
        rewrite map_length, Lg, Nat.sub_diag in X. cbn in X. apply some_pair_msg in X.
        assert (Bd := outs_bound _ _ _ _ _ _ _ _ _ c N). rewrite E in Bd. assert (Bc : In c (map fst (gots tr) ++ [c])) by (apply in_or_app; right; left; reflexivity). specialize (Bd Bc).
        unfold req_of in X. rewrite <- X. apply nth_error_nth'. exact Bd. }
      destruct (An _ Ac) as (Ca1 & Ca2 & Fu & Fk).
      destruct (server_id _ _ _ _ _ N) as (I1 & I2 & I3).
      set (k := vr_next (x_server s)).
      assert (Tk : forall x y, takes (tr ++ XTake k req :: x) = takes tr ++ (k, req) :: takes x /\ outs (tr ++ XTake k req :: y) = outs tr ++ outs y /\ server_ops (tr ++ XTake k req :: y) = server_ops tr ++ server_ops y).
      { intros x y. rewrite takes_app, outs_app, so_app. auto. }
      assert (Done : forall s' o, x_step XServerByte s = Some (s', XTake k req :: o) -> x_cli s' = x_cli s -> (forall d q, ~ In (XAsk d q) o) ->
        (forall d q, In (XBack d q) o -> fits q) -> vr_dead (x_server s') = false -> takes o = [] -> outs o = [] -> x_sess s' <> SClosed -> server_ops o = [MRequest req] ->
        exists ops' s' e, forallb smooth ops' = true /\ x_run ops' s = Some (s', e) /\ x_cli s' = x_cli s /\ modest (tr ++ e) /\ vr_dead (x_server s') = false /\
        length (takes (tr ++ e)) = length (outs (tr ++ e)) /\ x_sess s' <> SClosed /\ callable (server_ops (tr ++ e))).
      { intros s' o St C1 No Fi De' T0 O0 Cl So. exists [XServerByte], s', (XTake k req :: o). split; [reflexivity|].
        split; [cbn [x_run]; rewrite St; rewrite app_nil_r; reflexivity|]. split; [exact C1|].
        split; [|split; [exact De'|split; [|split; [exact Cl|]]]].
        - apply modest_snoc; auto.
          + intros d q [X|X]; [discriminate|exact (No _ _ X)].
          + intros d q [X|X]; [discriminate|exact (Fi _ _ X)].
        - destruct (Tk o o) as (-> & -> & _). rewrite T0, O0, app_nil_r, app_length. rewrite E, app_length, map_length. cbn. lia.
        - destruct (Tk o o) as (_ & _ & ->). rewrite So. exact Ca2. }
      destruct (request_step (x_server s) req De) as (v & Dv & [Rs|[(m & Nm & Rs)|Rs]]).
      * assert (St : x_step XServerByte s = Some (set_server v (set_sess (SBusy k) (read_up bs reader0 s)), XTake k req :: [XDo (MRequest req)])).
        { rewrite (take_step _ _ _ _ Up Sx Pu), (serve_step (MRequest req) (set_sess (SBusy (vr_next (x_server s))) (read_up bs reader0 s)) _ _ Rs). reflexivity. }
        apply (Done _ _ St); [reflexivity|intros d q [X|[]]; discriminate|intros d q [X|[]]; discriminate|exact Dv|reflexivity|reflexivity|discriminate|reflexivity].
      * assert (St : x_step XServerByte s = Some (set_sess SReading (write_down (response_msg (ser_response (say_unknown host name id m))) (set_server v (set_sess (SBusy k) (read_up bs reader0 s)))),
          XTake k req :: [XDo (MRequest req); XSrv (VReply k (ser_response (say_unknown host name id m))); XBack k (ser_response (say_unknown host name id m))])).
        { rewrite (take_step _ _ _ _ Up Sx Pu), (serve_step (MRequest req) (set_sess (SBusy (vr_next (x_server s))) (read_up bs reader0 s)) _ _ Rs). unfold reply. cbn [x_sess set_server set_sess]. rewrite Nat.eqb_refl, I1, I2, I3. reflexivity. }
        apply (Done _ _ St); [reflexivity|intros d q [X|[X|[X|[]]]]; discriminate| |exact Dv|reflexivity|reflexivity|discriminate|reflexivity].
        intros d q [X|[X|[X|[]]]]; try discriminate. injection X as _ <-. exact (proj1 (Fk _ Nm)).
      * assert (St : x_step XServerByte s = Some (set_sess SReading (write_down (response_msg (ser_response (say_unreadable host name id))) (set_server v (set_sess (SBusy k) (read_up bs reader0 s)))),
          XTake k req :: [XDo (MRequest req); XSrv (VReply k (ser_response (say_unreadable host name id))); XBack k (ser_response (say_unreadable host name id))])).
        { rewrite (take_step _ _ _ _ Up Sx Pu), (serve_step (MRequest req) (set_sess (SBusy (vr_next (x_server s))) (read_up bs reader0 s)) _ _ Rs). unfold reply. cbn [x_sess set_server set_sess]. rewrite Nat.eqb_refl, I1, I2, I3. reflexivity. }
        apply (Done _ _ St); [reflexivity|intros d q [X|[X|[X|[]]]]; discriminate| |exact Dv|reflexivity|reflexivity|discriminate|reflexivity].
        intros d q [X|[X|[X|[]]]]; try discriminate. injection X as _ <-. exact Fu.
Qed.
Definition waits (c : nat) (s : rpc) : Prop := c_cur (x_cli s) = Some (Sending c true) \/ c_cur (x_cli s) = Some (Receiving c true).
Definition short (c : nat) (tr : list xev) : Prop := forall req, In (XAsk c req) tr ->
  fits (ser_response (say_unreadable host name id)) /\
  forall m, names m req = true -> fits (ser_response (say_unknown host name id m)) /\ fits (ser_response (say_executed host name id m [] 0)).
(** The request in work is the one of c. *)
Lemma busy_c s tr h g t c k : INV n host name id s tr h g t -> modest tr -> waits c s -> x_sess s = SBusy k ->
  exists bs ops1 ops2, In (XAsk c bs) tr /\ server_ops tr = ops1 ++ MRequest bs :: ops2 /\ k = requests ops1.
Proof.
  intros N M C Sx. assert (Q := n_sess _ _ _ _ _ _ _ _ _ N). rewrite Sx in Q. destruct Q as [_ Q].
  destruct (counts _ _ _ _ _ _ N M C) as (_ & [L1 L2] & L3 & _).
  assert (L4 : length (takes tr) = length (backs tr) + 1). { apply (f_equal (@length _)) in Q. rewrite app_length, !map_length in Q. exact Q. }
  assert (X : nth_error (map fst (takes tr)) (length (backs tr)) = Some k). { rewrite Q, nth_error_app2 by (rewrite map_length; lia). rewrite map_length, Nat.sub_diag. reflexivity. }
  apply nth_map in X. destruct X as ([k' bs] & X & <-). cbn.
  destruct (n_take _ _ _ _ _ _ _ _ _ N k' bs (nth_error_In _ _ X)) as (o1 & o2 & E1 & E2).
  exists bs, o1, o2. split; [|auto]. eapply place_c; eauto. lia.
Qed.
Lemma busy_case s tr h g t c k : INV n host name id s tr h g t -> modest tr -> waits c s -> x_sess s = SBusy k -> unreplied s tr -> callable (server_ops tr) ->
  (about k (server_events tr) = [] /\ m_step (MEnter k) (x_server s) <> None) \/ m_step (MReturn k [] 0%Z) (x_server s) <> None.
Proof.
  intros N M C Sx U Ca. destruct (busy_c _ _ _ _ _ _ _ N M C Sx) as (bs & o1 & o2 & A & E & ->).
  assert (D := SrvProofs.no_terminate_lemma _ _ _ _ _ _ (n_srv _ _ _ _ _ _ _ _ _ N) Ca).
  assert (R := n_srv _ _ _ _ _ _ _ _ _ N). rewrite E in R.
  assert (Nr : forall b, ~ In (VReply (requests o1) b) (about (requests o1) (server_events tr))).
  { intros b X. apply (U _ b Sx). unfold about in X. apply filter_In in X. apply X. }
  apply SrvProofs.request_lemma in R. cbv zeta in R. destruct (de_request bs) as [q| |] eqn:Dq;
    try (exfalso; rewrite R in Nr; exact (Nr _ (or_introl eq_refl))).
  destruct (ld_known (book o1 (h_mname (rq_header q)))) eqn:Kn.
  2: { exfalso. rewrite R in Nr. exact (Nr _ (or_introl eq_refl)). }
  destruct (ld_cb (book o1 (h_mname (rq_header q)))) as [cb|] eqn:Cb.
  2: { exfalso. apply (Ca o1 bs o2 (h_mname (rq_header q)) E); auto. rewrite (SrvProofs.names_ok _ _ _ Dq). apply eqb_refl. }
  destruct R as [[R1 R2]|[[R1 R2]|(resp & ret & _ & R2)]]; auto.
  exfalso. rewrite R2 in Nr. exact (Nr _ (or_intror (or_introl eq_refl))).
Qed.
Lemma busy_return s tr h g t c k : INV n host name id s tr h g t -> modest tr -> waits c s -> x_sess s = SBusy k -> short c tr ->
  m_step (MReturn k [] 0%Z) (x_server s) <> None ->
  exists s' e, x_step (XServer (MReturn k [] 0%Z)) s = Some (s', e) /\ x_cli s' = x_cli s /\ modest (tr ++ e) /\ x_sess s' = SReading /\ outs e = [] /\ takes e = [].
Proof.
  intros N M C Sx An St. destruct (busy_c _ _ _ _ _ _ _ N M C Sx) as (bs & o1 & o2 & A & E & K).
  destruct (m_step (MReturn k [] 0%Z) (x_server s)) as [[v e]|] eqn:Ms; [clear St|congruence].
  assert (Eb : exists b, e = [VReply k b]).
  { unfold m_step in Ms. destruct (vr_dead (x_server s)); [discriminate|]. destruct (aget k (vr_jobs (x_server s))) as [[x r []]|]; try discriminate. injection Ms as _ <-. eauto. }
  destruct Eb as (b & ->).
  exists (set_sess SReading (write_down (response_msg b) (set_server v s))), (XDo (MReturn k [] 0%Z) :: [XSrv (VReply k b); XBack k b]).
  split. { cbn [x_step]. rewrite (serve_step _ _ _ _ Ms). unfold reply. cbn [x_sess set_server]. rewrite Sx, Nat.eqb_refl. reflexivity. }
  split; [reflexivity|]. split; [|split; [reflexivity|split; reflexivity]].
  apply modest_snoc; [exact M|intros d q [X|[X|[X|[]]]]; discriminate|]. intros d q [X|[X|[X|[]]]]; try discriminate. injection X as _ <-.
  assert (R : m_run (o1 ++ MRequest bs :: (o2 ++ [MReturn k [] 0%Z])) (server0 host name id) = Some (v, server_events tr ++ [VReply k b])).
  { change (o1 ++ MRequest bs :: o2 ++ [MReturn k [] 0%Z]) with (o1 ++ (MRequest bs :: o2) ++ [MReturn k [] 0%Z]). rewrite app_assoc, <- E.
    eapply SrvProofs.m_run_join; [exact (n_srv _ _ _ _ _ _ _ _ _ N)|]. cbn [m_run]. rewrite Ms. reflexivity. }
  assert (In1 : In (VReply k b) (about k (server_events tr ++ [VReply k b]))).
  { apply in_about; [apply in_or_app; right; left; reflexivity|apply Nat.eqb_refl]. }
  destruct (An _ A) as (Fu & Fk).
  apply SrvProofs.request_lemma in R. cbv zeta in R. rewrite <- K in R.
  destruct (de_request bs) as [q| |] eqn:Dq;
    try (rewrite R in In1; destruct In1 as [X|[]]; injection X as <-; exact Fu).
  assert (Nm : names (h_mname (rq_header q)) bs = true). { rewrite (SrvProofs.names_ok _ _ _ Dq). apply eqb_refl. }
  destruct (Fk _ Nm) as [F1 F2].
  destruct (ld_known (book o1 (h_mname (rq_header q)))).
  2: { rewrite R in In1. destruct In1 as [X|[]]. injection X as <-. exact F1. }
  destruct (ld_cb (book o1 (h_mname (rq_header q)))).
  2: { destruct R as [R|R]; rewrite R in In1; cbn in In1; intuition discriminate. }
  destruct R as [[R _]|[[R _]|(resp & ret & R1 & R)]]; rewrite R in In1.
  - destruct In1.
  - destruct In1 as [X|[]]. discriminate.
  - destruct In1 as [X|[X|[]]]; [discriminate|]. injection X as <-.
    rewrite SrvProofs.returns_app in R1. cbn [returns flat_map] in R1. rewrite Nat.eqb_refl in R1.
    apply (f_equal (@rev _)) in R1. rewrite rev_app_distr in R1. cbn in R1. injection R1 as <- <- _. exact F2.
Qed.
Lemma short_of c tr : answerable host name id c tr -> short c tr.
Proof. intros An req H. destruct (An _ H) as (_ & _ & A). exact A. Qed.
Lemma short_app c tr e : short c tr -> (forall q, ~ In (XAsk c q) e) -> short c (tr ++ e).
Proof. intros Sh No req H. apply in_app_iff in H. destruct H as [H|H]; [exact (Sh _ H)|destruct (No _ H)]. Qed.

(** Stage 2: the request is executed and answered. *)
Lemma stage2 s tr h g t c k : INV n host name id s tr h g t -> modest tr -> waits c s -> x_sess s = SBusy k -> unreplied s tr -> callable (server_ops tr) -> short c tr ->
  exists ops' s' e, forallb smooth ops' = true /\ x_run ops' s = Some (s', e) /\ x_cli s' = x_cli s /\ modest (tr ++ e) /\ x_sess s' = SReading /\ outs e = [] /\ takes e = [].
Proof.
  intros N M C Sx U Ca Sh. destruct (busy_case _ _ _ _ _ _ _ N M C Sx U Ca) as [[Ab En]|Re].
  2: { destruct (busy_return _ _ _ _ _ _ _ N M C Sx Sh Re) as (s' & e & A1 & A2 & A3 & A4 & A5 & A6).
       exists [XServer (MReturn k [] 0%Z)], s', e. split; [reflexivity|]. split; [cbn [x_run]; rewrite A1, app_nil_r; reflexivity|]. auto. }
  destruct (m_step (MEnter k) (x_server s)) as [[v ev]|] eqn:Ms; [clear En|congruence].
  assert (Ev : exists x, ev = [x] /\ of_request k x = true /\ forall d b, x <> VReply d b).
  { unfold m_step in Ms. destruct (vr_dead (x_server s)); [discriminate|]. destruct (aget k (vr_jobs (x_server s))) as [[x r []]|]; try discriminate.
    destruct (mt_cb x); injection Ms as _ <-; eexists; (split; [reflexivity|]); (split; [apply Nat.eqb_refl|]); intros; discriminate. }
  destruct Ev as (x & -> & Ox & Nx).
  assert (St : x_step (XServer (MEnter k)) s = Some (set_server v s, [XDo (MEnter k); XSrv x])).
  { cbn [x_step]. rewrite (serve_step _ _ _ _ Ms). unfold reply. cbn [x_sess set_server]. rewrite Sx. destruct x; try reflexivity. destruct (Nx _ _ eq_refl). }
  assert (No : forall d q, ~ In (XAsk d q) [XDo (MEnter k); XSrv x]) by (intros d q [X|[X|[]]]; discriminate).
  assert (M1 : modest (tr ++ [XDo (MEnter k); XSrv x])).
  { apply modest_snoc; [exact M|exact No|]. intros d q [X|[X|[]]]; discriminate. }
  destruct (rpc_step _ _ _ _ _ _ _ _ _ _ _ _ N M St) as (h1 & g1 & t1 & N1).
  assert (U1 := step_unreplied _ _ _ _ _ _ _ _ _ _ _ _ N St U).
  assert (So : server_ops (tr ++ [XDo (MEnter k); XSrv x]) = server_ops tr ++ [MEnter k]) by (rewrite so_app; reflexivity).
  assert (Ca1 : callable (server_ops (tr ++ [XDo (MEnter k); XSrv x]))) by (rewrite So; apply SrvProofs.callable_work; [exact Ca|reflexivity]).
  destruct (busy_case _ _ _ _ _ c k N1 M1 C Sx U1 Ca1) as [[Ab1 _]|Re].
  { exfalso. rewrite se_app, SrvProofs.about_app, Ab in Ab1. cbn in Ab1. rewrite Ox in Ab1. discriminate. }
  destruct (busy_return _ _ _ _ _ c k N1 M1 C Sx (short_app _ _ _ Sh (No c)) Re) as (s' & e & A1 & A2 & A3 & A4 & A5 & A6).
  exists [XServer (MEnter k); XServer (MReturn k [] 0%Z)], s', ([XDo (MEnter k); XSrv x] ++ e). split; [reflexivity|].
  split; [cbn [x_run]; rewrite St, A1, app_nil_r; reflexivity|]. split; [exact A2|]. split; [rewrite app_assoc; exact A3|]. split; [exact A4|].
  rewrite outs_app, takes_app, A5, A6. auto.
Qed.

(** Stage 3: the answer is read. *)
Lemma stage3 c len : forall s tr h g t, length (x_down s) <= len -> INV n host name id s tr h g t -> modest tr ->
  c_cur (x_cli s) = Some (Receiving c true) -> c_phase (x_cli s) = PConnected -> length (gots tr) < length (backs tr) ->
  exists ops' s' e bs, forallb smooth ops' = true /\ x_run ops' s = Some (s', e) /\ modest (tr ++ e) /\ In (XGot c bs) e /\ x_cli s' = fst (next (set_cur None (x_cli s))) /\ x_sess s' = x_sess s.
Proof.
  induction len as [|len IH]; intros s tr h g t L N M C P Lt.
  - destruct (x_down s) eqn:Dn; [|cbn in L; lia]. exfalso. assert (U := n_down _ _ _ _ _ _ _ _ _ N). rewrite Dn in U.
    apply stream_end in U; [|apply ok_answer; apply fits_backs; exact M].
    destruct (counts _ _ _ _ _ _ N M (or_intror C)) as (_ & _ & _ & ->).
    assert (G : g = true) by (apply (l_g _ _ _ _ _ _ (n_link _ _ _ _ _ _ _ _ _ N)); exact P). subst g.
    apply (f_equal (@length _)) in U. cbn in U. rewrite !map_length in U. lia.
  - destruct (x_down s) as [|b bs] eqn:Dn.
    { apply (IH s tr h g t); auto. rewrite Dn. cbn. lia. }
    destruct (push (x_cread s) b) as [r|m] eqn:Pu.
    + assert (St : x_step XClientByte s = Some (read_down bs r s, [])) by (cbn [x_step]; rewrite Dn, P, C, Pu; reflexivity).
      destruct (rpc_step _ _ _ _ _ _ _ _ _ _ _ _ N M St) as (h1 & g1 & t1 & N1). rewrite app_nil_r in N1.
      destruct (IH (read_down bs r s) tr h1 g1 t1) as (ops' & s' & e & q & A1 & A2 & A3 & A4 & A5 & A6); auto.
      { cbn in L |- *. lia. }
      exists (XClientByte :: ops'), s', e, q. split; [exact A1|]. split; [cbn [x_run]; rewrite St, A2; reflexivity|]. auto.
    + assert (U := n_down _ _ _ _ _ _ _ _ _ N). rewrite Dn in U.
      destruct (stream_msg _ _ _ _ _ _ U Pu (ok_answer t _ (fits_backs _ M))) as [_ (M2 & U3)].
      destruct (counts _ _ _ _ _ _ N M (or_intror C)) as (_ & _ & _ & ->).
      assert (G : g = true) by (apply (l_g _ _ _ _ _ _ (n_link _ _ _ _ _ _ _ _ _ N)); exact P). subst g.
      cbn in U3. injection U3 as U3.
      assert (X : In m (map response_msg (map snd (backs tr)))) by (rewrite U3; apply in_or_app; right; left; reflexivity).
      apply in_map_iff in X. destruct X as (q & <- & _).
      assert (St : exists s' o, x_step XClientByte s = Some (s', XGot c q :: o) /\ ((forall d z, ~ In (XAsk d z) o) /\ (forall d z, ~ In (XBack d z) o)) /\ x_cli s' = fst (next (set_cur None (x_cli s))) /\ x_sess s' = x_sess s).
      { cbn [x_step]. rewrite Dn, P, C, Pu. change (fm_type (response_msg q)) with mt_service_response. rewrite Z.eqb_refl.
        unfold client. cbn [x_cli read_down c_step]. rewrite C. unfold with_events. cbn [fst snd]. unfold write_request.
        destruct (started _ _); do 2 eexists; (split; [reflexivity|]); (split; [|split; reflexivity]); split; intros d z H; apply in_app_iff in H; destruct H as [H|H];
          try (apply in_map_iff in H; destruct H as (? & ? & _); discriminate); cbn in H; intuition discriminate. }
      destruct St as (s' & o & St & (No & Nb) & Sc & Ss).
      exists [XClientByte], s', (XGot c q :: o), q. split; [reflexivity|]. split; [cbn [x_run]; rewrite St, app_nil_r; reflexivity|].
      split; [|split; [left; reflexivity|split; assumption]]. apply modest_snoc; [exact M| |].
      * intros d z [X|X]; [discriminate|exact (No _ _ X)].
      * intros d z [X|X]; [discriminate|destruct (Nb _ _ X)].
Qed.
Lemma stage3_send c s tr h g t : INV n host name id s tr h g t -> modest tr -> waits c s -> c_phase (x_cli s) = PConnected -> c_sock (x_cli s) = true ->
  length (gots tr) < length (backs tr) ->
  exists ops' s' e bs, forallb smooth ops' = true /\ x_run ops' s = Some (s', e) /\ modest (tr ++ e) /\ In (XGot c bs) e /\ x_cli s' = fst (next (set_cur None (x_cli s))) /\ x_sess s' = x_sess s.
Proof.
  intros N M [C|C] P K Lt; [|eapply stage3; eauto].
  assert (St : x_step (XClient (CSent true)) s = Some (set_cli (set_cur (Some (Receiving c true)) (x_cli s)) s, [])).
  { cbn [x_step with_data]. unfold client. cbn [c_step]. rewrite C, K. reflexivity. }
  destruct (rpc_step _ _ _ _ _ _ _ _ _ _ _ _ N M St) as (h1 & g1 & t1 & N1). rewrite app_nil_r in N1.
  destruct (stage3 c _ _ tr h1 g1 t1 (le_n _) N1 M eq_refl P Lt) as (ops' & s' & e & q & A1 & A2 & A3 & A4 & A5 & A6).
  exists (XClient (CSent true) :: ops'), s', e, q. split; [exact A1|]. split; [cbn [x_run]; rewrite St, A2; reflexivity|]. auto.
Qed.

Lemma progress_strong ops s tr c : x_run ops (x_init n host name id) = Some (s, tr) -> modest tr -> awaited c s -> answerable host name id c tr ->
  exists ops' s' e bs, forallb smooth ops' = true /\ x_run ops' s = Some (s', e) /\ modest (tr ++ e) /\ In (XGot c bs) e /\ x_cli s' = fst (next (set_cur None (x_cli s))) /\ x_sess s' <> SClosed.
Proof.
  intros R M (C & P & K & Cl) An. destruct (rpc_inv _ _ _ _ _ _ _ R M) as (h & g & t & N).
  assert (U : unreplied s tr).
  { apply (run_unreplied n host name id ops _ [] _ _ _ s tr (rpc_init n host name id)); auto. intros k bs X. discriminate. }
  assert (Sh := short_of _ _ An).
  destruct (counts _ _ _ _ _ _ N M C) as (E & [L1 L2] & L3 & T).
  assert (Lo : length (outs tr) = S (length (gots tr))) by (rewrite E, app_length, map_length; cbn; lia).
  assert (Ca : callable (server_ops tr)).
  { assert (Bd : In c (outs tr)) by (rewrite E; apply in_or_app; right; left; reflexivity). apply (outs_bound _ _ _ _ _ _ _ _ _ c N) in Bd.
    destruct (nth_error (x_reqs s) c) as [req|] eqn:X; [|apply nth_error_None in X; lia]. apply (n_ask _ _ _ _ _ _ _ _ _ N) in X. apply (An _ X). }
  (* from a state in which everything is taken *)
  assert (Fin : forall s1 e1 ops1, forallb smooth ops1 = true -> x_run ops1 s = Some (s1, e1) -> x_cli s1 = x_cli s -> modest (tr ++ e1) ->
    length (takes (tr ++ e1)) = length (outs (tr ++ e1)) -> x_sess s1 <> SClosed -> callable (server_ops (tr ++ e1)) ->
    exists ops' s' e bs, forallb smooth ops' = true /\ x_run ops' s = Some (s', e) /\ modest (tr ++ e) /\ In (XGot c bs) e /\ x_cli s' = fst (next (set_cur None (x_cli s))) /\ x_sess s' <> SClosed).
  { intros s1 e1 ops1 F1 R1 C1 M1 Lq Cl1 Ca1. destruct (rpc_run _ _ _ _ _ _ _ _ _ _ _ _ N R1 M1) as (h1 & g1 & t1 & N1).
    assert (U1 := run_unreplied _ _ _ _ _ _ _ _ _ _ _ _ N U R1 M1).
    assert (W1 : waits c s1) by (unfold waits; rewrite C1; exact C).
    destruct (counts _ _ _ _ _ _ N1 M1 W1) as (E' & [L1' L2'] & L3' & T').
    assert (Lo' : length (outs (tr ++ e1)) = S (length (gots (tr ++ e1)))) by (rewrite E', app_length, map_length; cbn; lia).
    assert (Sh1 : short c (tr ++ e1)).
    { intros req H. apply (n_ask _ _ _ _ _ _ _ _ _ N1) in H.
      assert (Bd : In c (outs tr)) by (rewrite E; apply in_or_app; right; left; reflexivity). apply (outs_bound _ _ _ _ _ _ _ _ _ c N) in Bd.
      destruct (nth_error (x_reqs s) c) as [req'|] eqn:X; [|apply nth_error_None in X; lia]. apply (n_ask _ _ _ _ _ _ _ _ _ N) in X.
      assert (X' : In (XAsk c req') (tr ++ e1)) by (apply in_or_app; left; exact X). apply (n_ask _ _ _ _ _ _ _ _ _ N1) in X'.
      replace req with req' by congruence. exact (Sh _ X). }
    assert (Q := n_sess _ _ _ _ _ _ _ _ _ N1). destruct (x_sess s1) as [| |k|] eqn:Sx; [cbn in Q; congruence| | |congruence].
    - destruct Q as [_ Q]. apply (f_equal (@length _)) in Q. rewrite !map_length in Q.
      destruct (stage3_send c _ _ _ _ _ N1 M1 W1) as (o2 & s2 & e2 & q & A1 & A2 & A3 & A4 & A5 & A6); try congruence; [lia|].
      exists (ops1 ++ o2), s2, (e1 ++ e2), q. split; [rewrite forallb_app, F1; exact A1|]. split; [eapply x_run_app; eauto|].
      split; [rewrite app_assoc; exact A3|]. split; [apply in_or_app; right; exact A4|]. split; [rewrite A5, C1; reflexivity|rewrite A6, Sx; discriminate].
    - destruct (stage2 _ _ _ _ _ _ _ N1 M1 W1 Sx U1 Ca1 Sh1) as (o2 & s2 & e2 & A1 & A2 & A3 & A4 & A5 & A6 & A7).
      destruct (rpc_run _ _ _ _ _ _ _ _ _ _ _ _ N1 A2 A4) as (h2 & g2 & t2 & N2).
      assert (Q2 := n_sess _ _ _ _ _ _ _ _ _ N2). rewrite A5 in Q2. destruct Q2 as [_ Q2]. apply (f_equal (@length _)) in Q2. rewrite !map_length in Q2.
      assert (W2 : waits c s2) by (unfold waits; rewrite A3; exact W1).
      destruct (counts _ _ _ _ _ _ N2 A4 W2) as (E2 & _ & _ & _).
      assert (Lo2 : length (outs ((tr ++ e1) ++ e2)) = S (length (gots ((tr ++ e1) ++ e2)))) by (rewrite E2, app_length, map_length; cbn; lia).
      rewrite outs_app, A6, app_nil_r in Lo2. rewrite takes_app, A7, app_nil_r in Q2.
      destruct (stage3_send c _ _ _ _ _ N2 A4 W2) as (o3 & s3 & e3 & q & B1 & B2 & B3 & B4 & B5 & B6); try congruence; [lia|].
      exists (ops1 ++ o2 ++ o3), s3, (e1 ++ e2 ++ e3), q. split; [rewrite !forallb_app, F1, A1; exact B1|]. split; [eapply x_run_app; [exact R1|eapply x_run_app; eauto]|].
      split; [rewrite !app_assoc; exact B3|]. split; [apply in_or_app; right; apply in_or_app; right; exact B4|]. split; [rewrite B5, A3, C1; reflexivity|rewrite B6, A5; discriminate]. }
  destruct (Nat.eq_dec (length (takes tr)) (length (outs tr))) as [Eq|Ne].
  - apply (Fin s [] []); auto; rewrite app_nil_r; auto.
  - assert (Q := n_sess _ _ _ _ _ _ _ _ _ N). destruct (x_sess s) as [| |k|] eqn:Sx; [cbn in Q; congruence| |exfalso|congruence].
    + destruct (stage1 c _ s tr h g t (le_n _) N M C Sx) as (o1 & s1 & e1 & A1 & A2 & A3 & A4 & A5 & A6 & A7 & A8); auto.
      * eapply SrvProofs.no_terminate_lemma; [exact (n_srv _ _ _ _ _ _ _ _ _ N)|exact Ca].
      * lia.
      * apply (Fin s1 e1 o1); auto.
    + destruct Q as [_ Q]. apply (f_equal (@length _)) in Q. rewrite app_length, !map_length in Q. cbn in Q. lia.
Qed.
Lemma progress_lemma ops s tr c : x_run ops (x_init n host name id) = Some (s, tr) -> modest tr -> awaited c s -> answerable host name id c tr ->
  exists ops' s' e bs, forallb smooth ops' = true /\ x_run ops' s = Some (s', e) /\ modest (tr ++ e) /\ In (XGot c bs) e.
Proof. intros R M W A. destruct (progress_strong _ _ _ _ R M W A) as (o & s' & e & bs & A1 & A2 & A3 & A4 & _). exists o, s', e, bs. auto. Qed.
End Progress.

(** ** Examples *)
Lemma modest_dec tr : forallb (fun e => match e with XAsk _ bs | XBack _ bs => Z.ltb (Z.of_nat (length bs)) (2 ^ 32) | _ => true end) tr = true -> modest tr.
Proof.
  intros H. rewrite forallb_forall in H. split; intros x y I9; apply H in I9; cbn in I9; apply Z.ltb_lt; exact I9.
Qed.
Lemma run_example :
  match x_run rpc_ops (x_init 1 (str "h") (str "srv") (str "1")) with
  | Some (s, tr) =>
      (outs tr, map fst (takes tr), map fst (backs tr), map fst (gots tr)) = ([0; 1; 2], [0; 2; 3], [0; 2], [0; 1]) /\
      map (fun p => de_response (snd p)) (gots tr) = [Ok (say_executed (str "h") (str "srv") (str "1") (str "add") [3]%Z 0); Ok (say_unknown (str "h") (str "srv") (str "1") (str "sub"))] /\
      In (XSrv (VCall 3 3 (str "add") (str "I") (str "O") [7]%Z)) tr /\ In (EvAnswer 2 AClosed) (client_events tr) /\ modest tr
  | None => False
  end.
Proof.
  destruct (x_run rpc_ops (x_init 1 (str "h") (str "srv") (str "1"))) as [[s tr]|] eqn:E; [|vm_compute in E; discriminate].
  assert (T : tr = match x_run rpc_ops (x_init 1 (str "h") (str "srv") (str "1")) with Some (_, t) => t | None => [] end) by (rewrite E; reflexivity). clear E.
  vm_compute in T. subst tr.
  split; [reflexivity|]. split; [vm_compute; reflexivity|]. split; [cbn; intuition|]. split; [cbn; intuition|]. apply modest_dec. vm_compute. reflexivity.
Qed.
Lemma middle_example :
  match x_run (firstn 60 rpc_ops) (x_init 1 (str "h") (str "srv") (str "1")) with
  | Some (s, tr) => awaited 0 s /\ answerable (str "h") (str "srv") (str "1") 0 tr /\ modest tr /\ gots tr = []
  | None => False
  end.
Proof.
  destruct (x_run (firstn 60 rpc_ops) (x_init 1 (str "h") (str "srv") (str "1"))) as [[s tr]|] eqn:E; [|vm_compute in E; discriminate].
  assert (X : Some (s, tr) = x_run (firstn 60 rpc_ops) (x_init 1 (str "h") (str "srv") (str "1"))) by (rewrite E; reflexivity). clear E.
  vm_compute in X. injection X as -> ->.
  split. { split; [vm_compute; auto|]. split; [reflexivity|]. split; [reflexivity|]. discriminate. }
  split; [|split; [apply modest_dec; vm_compute; reflexivity|reflexivity]].
  intros req Hq. assert (req = call_bytes (str "add") [1; 2]%Z).
  { cbn [In] in Hq. repeat (destruct Hq as [Hq|Hq]; [try discriminate; injection Hq as <-; vm_compute; reflexivity|]). destruct Hq. }
  subst req. clear Hq.
  assert (Nm : forall m, names m (call_bytes (str "add") [1; 2]%Z) = true -> m = str "add").
  { intros m Hm. assert (D : de_request (call_bytes (str "add") [1; 2]%Z) = Ok (Request (Header [] [] [] (str "add") [] 0 0) [1; 2]%Z)) by (vm_compute; reflexivity).
    rewrite (SrvProofs.names_ok _ _ _ D) in Hm. apply eqb_true in Hm. symmetry. exact Hm. }
  split; [|split; [|split; [vm_compute; reflexivity|]]].
  - intros o1 bs o2 m Eo. cbn in Eo. destruct o1 as [|x [|y o1]]; cbn in Eo; discriminate.
  - intros o1 bs o2 m Eo Hm Kn. cbn [server_ops flat_map app] in Eo.
    destruct o1 as [|x [|y [|z o1]]]; cbn [app] in Eo; try discriminate. injection Eo as <- <- _. apply Nm in Hm. subst m. vm_compute. discriminate.
  - intros m Hm. apply Nm in Hm. subst m. split; vm_compute; reflexivity.
Qed.
