(** Proofs about client sessions. *)
From Coq Require Import Permutation.
From Verif Require Import Base CliModel CliSpec.

Lemma some_pair {A} (a b : A) : Some a = Some b -> a = b.
Proof. congruence. Qed.
Lemma with_events_inv e r s' e' : with_events e r = Some (s', e') -> s' = fst r /\ e' = e ++ snd r.
Proof. unfold with_events. intros H. apply some_pair in H. split; congruence. Qed.
Definition cnt (c : nat) (l : list nat) : nat := count_occ Nat.eq_dec l c.
Arguments cnt : simpl never.
Lemma cnt_app c a b : cnt c (a ++ b) = cnt c a + cnt c b.
Proof. apply count_occ_app. Qed.
Lemma cnt_cons c x l : cnt c (x :: l) = (if Nat.eq_dec x c then 1 else 0) + cnt c l.
Proof. unfold cnt. cbn. destruct (Nat.eq_dec x c); reflexivity. Qed.
Lemma cnt_nil c : cnt c [] = 0.
Proof. reflexivity. Qed.

Definition hcalls (ps : list post) : list nat := flat_map (fun p => match p with HCall c => [c] | HFlush => [] end) ps.
Arguments hcalls : simpl never.
Lemma hcalls_call c ps : hcalls (HCall c :: ps) = c :: hcalls ps. Proof. reflexivity. Qed.
Lemma hcalls_flush ps : hcalls (HFlush :: ps) = hcalls ps. Proof. reflexivity. Qed.
Lemma hcalls_nil : hcalls [] = []. Proof. reflexivity. Qed.
Lemma hcalls_app a b : hcalls (a ++ b) = hcalls a ++ hcalls b.
Proof. apply flat_map_app. Qed.
Definition curl (f : option flight) : list nat := match f with Some (Sending c _) | Some (Receiving c _) => [c] | None => [] end.
Definition curid (f : option flight) : option nat := match f with Some (Sending c _) | Some (Receiving c _) => Some c | None => None end.

Lemma sends_app a b : sends (a ++ b) = sends a ++ sends b. Proof. apply flat_map_app. Qed.
Lemma accepts_app a b : accepts (a ++ b) = accepts a ++ accepts b. Proof. apply flat_map_app. Qed.
Lemma answers_app a b : answers (a ++ b) = answers a ++ answers b. Proof. apply flat_map_app. Qed.
Lemma oks_app a b : oks (a ++ b) = oks a ++ oks b. Proof. apply flat_map_app. Qed.
Lemma conn_app a b : conn_events (a ++ b) = conn_events a ++ conn_events b. Proof. apply flat_map_app. Qed.

(** ** Subsequences *)
Lemma sub_refl {A} (l : list A) : subseq l l.
Proof. induction l; [constructor|apply sub_keep; auto]. Qed.
Lemma sub_nil_l {A} (l : list A) : subseq [] l.
Proof. induction l; constructor; auto. Qed.
Lemma sub_trans {A} (b c : list A) : subseq b c -> forall a, subseq a b -> subseq a c.
Proof.
  induction 1; intros a0 H0; [exact H0|apply sub_skip; auto|]. inversion H0; subst; [apply sub_skip; auto|apply sub_keep; auto].
Qed.
Lemma sub_app {A} (a b c d : list A) : subseq a b -> subseq c d -> subseq (a ++ c) (b ++ d).
Proof. induction 1; intros; cbn; [assumption|apply sub_skip; auto|apply sub_keep; auto]. Qed.
Lemma sub_drop {A} (a b : list A) x : subseq (a ++ b) (a ++ x :: b).
Proof. apply sub_app; [apply sub_refl|apply sub_skip; apply sub_refl]. Qed.

(** ** Requests in flight *)
Fixpoint flies (cur : option nat) (tr : list cev) : option nat :=
  match tr with
  | [] => cur
  | EvSend c :: tr' => flies (Some c) tr'
  | EvAnswer c a :: tr' =>
      match cur with Some d => if Nat.eqb c d then flies None tr' else flies cur tr' | None => flies None tr' end
  | _ :: tr' => flies cur tr'
  end.
Lemma flies_app cur a b : flies cur (a ++ b) = flies (flies cur a) b.
Proof.
  revert cur; induction a as [|e a IH]; intros cur; [reflexivity|]. cbn. destruct e; auto. destruct cur as [d|]; auto. destruct (Nat.eqb c d); auto.
Qed.
Lemma one_app cur a b : one_at_a_time cur (a ++ b) <-> one_at_a_time cur a /\ one_at_a_time (flies cur a) b.
Proof.
  revert cur; induction a as [|e a IH]; intros cur; cbn; [tauto|]. destruct e; try apply IH.
  - rewrite IH. tauto.
  - destruct cur as [d|]; [destruct (Nat.eqb c d)|]; rewrite IH; tauto.
Qed.

Definition pre (p : phase) : bool := match p with PConnected | PFailed => false | _ => true end.

Record Inv (s : cli) (tr : list cev) : Prop := {
  i_acc : accepts tr = seq 0 (c_next s);
  i_cnt : forall c, cnt c (accepts tr) = cnt c (answers tr) + cnt c (hcalls (c_posts s)) + cnt c (c_queue s) + cnt c (curl (c_cur s));
  i_flush : c_phase s = PFailed -> c_queue s <> [] -> In HFlush (c_posts s);
  i_idle : c_phase s = PConnected -> c_busy s = false -> c_queue s = [];
  i_busy : c_phase s = PConnected -> c_busy s = true -> c_cur s = None -> c_losses s > 0;
  i_cur : c_busy s = false -> c_cur s = None;
  i_pre : pre (c_phase s) = true -> c_busy s = false;
  i_order : subseq (sends tr ++ c_queue s ++ hcalls (c_posts s)) (accepts tr);
  i_oks : subseq (oks tr ++ curl (c_cur s)) (sends tr);
  i_one : one_at_a_time None tr;
  i_fly : flies None tr = curid (c_cur s);
  i_conn : conn_events tr = match c_phase s with PConnected => [true] | PFailed => conn_events tr | _ => [] end;
  i_conn2 : conn_events tr = [] \/ conn_events tr = [true] \/ conn_events tr = [true; false];
  i_conn3 : c_phase s = PFailed -> conn_events tr <> [true] }.

Lemma acc_once s tr c : Inv s tr -> cnt c (accepts tr) <= 1.
Proof.
  intros I. rewrite (i_acc _ _ I).
  apply (proj1 (NoDup_count_occ Nat.eq_dec (seq 0 (c_next s))) (seq_NoDup _ _) c).
Qed.

Lemma inv_init n : Inv (c_init n) [].
Proof. constructor; cbn; auto; try congruence; try constructor; intros; auto. Qed.

(** Changes that concern nothing but the socket, the peeks or the phase before connecting. *)
Lemma inv_same s s' tr : Inv s tr -> c_next s' = c_next s -> c_posts s' = c_posts s -> c_queue s' = c_queue s -> c_cur s' = c_cur s ->
  c_busy s' = c_busy s -> (c_losses s <= c_losses s') ->
  (c_phase s' = c_phase s \/ (pre (c_phase s) = true /\ pre (c_phase s') = true)) -> Inv s' tr.
Proof.
  intros [A B C D E F G H I J K L M N] E1 E2 E3 E4 E5 E6 P. constructor; rewrite ?E1, ?E2, ?E3, ?E4, ?E5; auto.
  - intros P'. apply C. destruct P as [<-|[_ P2]]; [auto|rewrite P' in P2; discriminate].
  - intros P'. apply D. destruct P as [<-|[_ P2]]; [auto|rewrite P' in P2; discriminate].
  - intros P' B1 B2. destruct P as [P|[_ P2]]; [rewrite P in P'; specialize (E P' B1 B2); lia|rewrite P' in P2; discriminate].
  - intros P'. apply G. destruct P as [<-|[P2 _]]; auto.
  - destruct P as [->|[P1 P2]]; [exact L|]. destruct (c_phase s); try discriminate P1; destruct (c_phase s'); try discriminate P2; exact L.
  - intros P'. destruct P as [P|[_ P2]]; [apply N; congruence|rewrite P' in P2; discriminate].
Qed.

(** The request in flight is answered; losing or sending the next follows. *)
Definition open_cur (s : cli) : Prop := c_cur s = None.
Record InvX (s : cli) (tr : list cev) : Prop := {
  x_acc : accepts tr = seq 0 (c_next s);
  x_cnt : forall c, cnt c (accepts tr) = cnt c (answers tr) + cnt c (hcalls (c_posts s)) + cnt c (c_queue s);
  x_cur : c_cur s = None;
  x_flush : c_phase s = PFailed -> c_queue s <> [] -> In HFlush (c_posts s);
  x_order : subseq (sends tr ++ c_queue s ++ hcalls (c_posts s)) (accepts tr);
  x_oks : subseq (oks tr) (sends tr);
  x_one : one_at_a_time None tr;
  x_fly : flies None tr = None;
  x_pre : pre (c_phase s) = true -> c_busy s = false;
  x_conn : conn_events tr = match c_phase s with PConnected => [true] | PFailed => conn_events tr | _ => [] end;
  x_conn2 : conn_events tr = [] \/ conn_events tr = [true] \/ conn_events tr = [true; false];
  x_conn3 : c_phase s = PFailed -> conn_events tr <> [true] }.
Lemma inv_x s tr : Inv s tr -> c_cur s = None -> InvX s tr.
Proof.
  intros [A B C D E F G H I J K L M N] X. rewrite X in *. cbn in *. constructor; auto.
  - intros c. rewrite B, cnt_nil. lia.
  - rewrite app_nil_r in I. exact I.
Qed.

Lemma send_inv s tr c q : InvX (set_queue (c :: q) s) tr -> c_phase s <> PFailed \/ q = [] \/ In HFlush (c_posts s) -> pre (c_phase s) = false ->
  Inv (fst (send c (set_queue q s))) (tr ++ snd (send c (set_queue q s))).
Proof.
  intros [A B X C E F G H Q J K L] P Np. cbn in *. constructor; cbn [send fst snd c_servers c_phase c_sock c_stopped c_next c_queue c_busy c_cur c_peeks c_losses c_posts set_queue curl curid].
  - rewrite accepts_app. cbn. rewrite app_nil_r. exact A.
  - intros d. rewrite accepts_app, answers_app. cbn [accepts answers flat_map app]. rewrite !app_nil_r, B, !cnt_cons, cnt_nil. lia.
  - intros P1 P2. destruct P as [P|[P|P]]; [contradiction|contradiction|exact P].
  - discriminate.
  - discriminate.
  - discriminate.
  - rewrite Np. discriminate.
  - rewrite accepts_app, sends_app. cbn. rewrite !app_nil_r, <- app_assoc. exact E.
  - rewrite oks_app, sends_app. cbn. rewrite !app_nil_r. apply sub_app; [exact F|apply sub_refl].
  - apply one_app. split; [exact G|]. rewrite H. cbn. auto.
  - rewrite flies_app, H. reflexivity.
  - rewrite conn_app. cbn. rewrite app_nil_r. exact J.
  - rewrite conn_app. cbn. rewrite app_nil_r. exact K.
  - rewrite conn_app. cbn. rewrite app_nil_r. exact L.
Qed.
Lemma next_inv s tr : InvX s tr -> pre (c_phase s) = false -> Inv (fst (next s)) (tr ++ snd (next s)).
Proof.
  intros I Np. unfold next. destruct (c_queue s) as [|c q] eqn:Eq.
  - destruct I as [A B X C E F G H Q J K L]. rewrite Eq in *. constructor; cbn [fst snd c_servers c_phase c_sock c_stopped c_next c_queue c_busy c_cur c_peeks c_losses c_posts curl curid]; rewrite ?app_nil_r; auto; try congruence.
    intros c. rewrite B, cnt_nil. lia.
  - apply send_inv; auto.
    + assert (set_queue (c :: q) s = s) as -> by (destruct s; cbn in *; subst; reflexivity). exact I.
    + destruct (c_phase s) eqn:Ep; try (left; discriminate). right. right. apply (x_flush _ _ I); congruence.
Qed.
Lemma loss_inv s tr : InvX s tr -> Inv (fst (loss s)) (tr ++ snd (loss s)).
Proof.
  intros I. unfold loss. destruct I as [A B X C E F G H Q J K L].
  assert (PF : c_phase s = PFailed \/ c_phase s <> PFailed) by (destruct (c_phase s); auto; right; discriminate).
  destruct PF as [PF|PF].
  - rewrite PF. cbn [fst snd]. rewrite app_nil_r. constructor; cbn [set_sock c_servers c_phase c_sock c_stopped c_next c_queue c_busy c_cur c_peeks c_losses c_posts]; rewrite ?X; cbn [curl curid]; auto; try congruence.
    + intros c. rewrite B, cnt_nil. lia.
    + rewrite app_nil_r. exact F.
  - assert (EQ : match c_phase s with PFailed => (set_sock false s, []) | p => (set_posts (c_posts s ++ if is_nil (c_queue s) then [] else [HFlush]) (set_phase PFailed (set_sock false s)), match p with PConnected => [EvDisconnected] | _ => [] end) end
      = (set_posts (c_posts s ++ if is_nil (c_queue s) then [] else [HFlush]) (set_phase PFailed (set_sock false s)), match c_phase s with PConnected => [EvDisconnected] | _ => [] end)) by (destruct (c_phase s); congruence).
    rewrite EQ. cbn [fst snd]. clear EQ. set (e := match c_phase s with PConnected => [EvDisconnected] | _ => [] end).
    assert (HF : hcalls (c_posts s ++ if is_nil (c_queue s) then [] else [HFlush]) = hcalls (c_posts s)) by (rewrite hcalls_app; destruct (is_nil (c_queue s)); cbn; rewrite app_nil_r; reflexivity).
    assert (E0 : accepts e = [] /\ answers e = [] /\ sends e = [] /\ oks e = [] /\ (forall x, flies x e = x) /\ one_at_a_time None e) by (unfold e; destruct (c_phase s); cbn; auto 10).
    destruct E0 as [E1 [E2 [E3 [E4 [E5 E6]]]]].
    constructor; cbn [set_posts set_phase set_sock c_servers c_phase c_sock c_stopped c_next c_queue c_busy c_cur c_peeks c_losses c_posts];
      rewrite ?accepts_app, ?answers_app, ?sends_app, ?oks_app, ?E1, ?E2, ?E3, ?E4, ?app_nil_r, ?HF, ?X; cbn [curl curid]; auto; try congruence.
    + intros c. rewrite B, cnt_nil. lia.
    + intros _ N. apply in_or_app. right. destruct (c_queue s); [congruence|left; reflexivity].
    + discriminate.
    + rewrite app_nil_r. exact F.
    + apply one_app. split; [exact G|]. rewrite H. exact E6.
    + rewrite flies_app, E5. exact H.
    + rewrite conn_app. unfold e. destruct (c_phase s); try congruence; rewrite J; cbn; auto.
    + intros _. rewrite conn_app. unfold e. destruct (c_phase s); try congruence; rewrite J; cbn; discriminate.
Qed.

Lemma pre_x s tr : Inv s tr -> pre (c_phase s) = true -> InvX s tr.
Proof. intros I P. apply inv_x; [exact I|]. apply (i_cur _ _ I), (i_pre _ _ I), P. Qed.
(** The answer to the request in flight. *)
Lemma answered_x s tr c a : Inv s tr -> curl (c_cur s) = [c] -> curid (c_cur s) = Some c -> InvX (set_cur None s) (tr ++ [EvAnswer c a]).
Proof.
  intros [A B C D E F G K L M N O P Q] E1 E2. rewrite E1, E2 in *.
  assert (OK : oks [EvAnswer c a] = [c] \/ oks [EvAnswer c a] = []) by (destruct a; cbn; auto).
  constructor; cbn [set_cur c_servers c_phase c_sock c_stopped c_next c_queue c_busy c_cur c_peeks c_losses c_posts];
    rewrite ?accepts_app, ?answers_app, ?sends_app, ?oks_app, ?flies_app, ?conn_app; cbn [accepts answers sends conn_events flat_map app]; rewrite ?app_nil_r; auto.
  - intros d. rewrite cnt_app, B. lia.
  - destruct OK as [->| ->]; [exact L|]. rewrite app_nil_r. eapply sub_trans; [exact L|]. rewrite <- (app_nil_r (oks tr)) at 1. apply sub_app; [apply sub_refl|apply sub_nil_l].
  - apply one_app. split; [exact M|]. rewrite N. cbn. rewrite Nat.eqb_refl. exact Logic.I.
  - rewrite N. cbn. rewrite Nat.eqb_refl. reflexivity.
Qed.
(** A loss while a request may be in flight. *)
Lemma loss_inv' s tr : Inv s tr -> Inv (fst (loss s)) (tr ++ snd (loss s)).
Proof.
  intros [A B C D E F G K L M N O P Q]. unfold loss.
  assert (PF : c_phase s = PFailed \/ c_phase s <> PFailed) by (destruct (c_phase s); auto; right; discriminate).
  destruct PF as [PF|PF].
  - rewrite PF. cbn [fst snd]. rewrite app_nil_r. constructor; cbn [set_sock c_servers c_phase c_sock c_stopped c_next c_queue c_busy c_cur c_peeks c_losses c_posts]; auto; try congruence.
  - assert (EQ : match c_phase s with PFailed => (set_sock false s, []) | p => (set_posts (c_posts s ++ if is_nil (c_queue s) then [] else [HFlush]) (set_phase PFailed (set_sock false s)), match p with PConnected => [EvDisconnected] | _ => [] end) end
      = (set_posts (c_posts s ++ if is_nil (c_queue s) then [] else [HFlush]) (set_phase PFailed (set_sock false s)), match c_phase s with PConnected => [EvDisconnected] | _ => [] end)) by (destruct (c_phase s); congruence).
    rewrite EQ. cbn [fst snd]. clear EQ. set (e := match c_phase s with PConnected => [EvDisconnected] | _ => [] end).
    assert (HF : hcalls (c_posts s ++ if is_nil (c_queue s) then [] else [HFlush]) = hcalls (c_posts s)) by (rewrite hcalls_app; destruct (is_nil (c_queue s)); cbn; rewrite app_nil_r; reflexivity).
    assert (E0 : accepts e = [] /\ answers e = [] /\ sends e = [] /\ oks e = [] /\ (forall x, flies x e = x) /\ (forall x, one_at_a_time x e)) by (unfold e; destruct (c_phase s); cbn; auto 10).
    destruct E0 as [E1 [E2 [E3 [E4 [E5 E6]]]]].
    constructor; cbn [set_posts set_phase set_sock c_servers c_phase c_sock c_stopped c_next c_queue c_busy c_cur c_peeks c_losses c_posts];
      rewrite ?accepts_app, ?answers_app, ?sends_app, ?oks_app, ?E1, ?E2, ?E3, ?E4, ?app_nil_r, ?HF; auto; try congruence.
    + intros _ X. apply in_or_app. right. destruct (c_queue s); [congruence|left; reflexivity].
    + discriminate.
    + apply one_app. split; [exact M|apply E6].
    + rewrite flies_app, E5. exact N.
    + rewrite conn_app. unfold e. destruct (c_phase s); try congruence; rewrite O; cbn; auto.
    + intros _. rewrite conn_app. unfold e. destruct (c_phase s); try congruence; rewrite O; cbn; discriminate.
Qed.
Lemma loss_inv2 s n tr : Inv s tr -> Inv (fst (loss (set_losses n s))) (tr ++ snd (loss (set_losses n s))).
Proof.
  intros I.
  assert (PF : c_phase s = PConnected \/ c_phase s <> PConnected) by (destruct (c_phase s); auto; right; discriminate).
  assert (EX : fst (loss (set_losses n s)) = set_losses n (fst (loss s)) /\ snd (loss (set_losses n s)) = snd (loss s)) by (unfold loss; destruct s as [? [] ? ? ? ? ? ? ? ? ?]; cbn; auto).
  destruct EX as [-> ->]. pose proof (loss_inv' s tr I) as [A B C D E F G K L M N O P Q].
  assert (NP : c_phase (fst (loss s)) = PFailed) by (unfold loss; destruct (c_phase s) eqn:Es; cbn; auto).
  constructor; cbn [set_losses c_servers c_phase c_sock c_stopped c_next c_queue c_busy c_cur c_peeks c_losses c_posts]; auto. congruence.
Qed.

Lemma step_inv op s tr s' e : Inv s tr -> c_step op s = Some (s', e) -> Inv s' (tr ++ e).
Proof.
  intros I H. destruct op; cbn [c_step] in H.
  - (* call *) destruct (c_stopped s).
    + injection H as <- <-. destruct I as [A B C D E F G K L M N O P Q].
      constructor; rewrite ?accepts_app, ?answers_app, ?sends_app, ?oks_app, ?flies_app, ?conn_app; cbn; rewrite ?app_nil_r; auto. apply one_app. cbn. auto.
    + injection H as <- <-. destruct I as [A B C D E F G K L M N O P Q].
      constructor; cbn [c_servers c_phase c_sock c_stopped c_next c_queue c_busy c_cur c_peeks c_losses c_posts]; rewrite ?accepts_app, ?answers_app, ?sends_app, ?oks_app, ?flies_app, ?conn_app; cbn [accepts answers sends oks conn_events flat_map app]; rewrite ?app_nil_r; auto.
      * rewrite A, seq_S. reflexivity.
      * intros c. rewrite cnt_app, hcalls_app, cnt_app, B. rewrite hcalls_call, hcalls_nil, cnt_cons. lia.
      * intros. apply in_or_app. auto.
      * rewrite hcalls_app. change (hcalls [HCall (c_next s)]) with [c_next s]. rewrite !app_assoc, <- (app_assoc _ _ (hcalls _)). apply sub_app; [exact K|apply sub_refl].
      * apply one_app. cbn. auto.
  - (* stop *) injection H as <- <-. rewrite app_nil_r. eapply inv_same; eauto.
  - (* post *) destruct (c_posts s) as [|[c|] ps] eqn:Ep; [discriminate| |].
    + assert (CC : c_phase s = PFailed \/ (c_phase s = PConnected /\ c_busy s = false) \/ (c_phase s <> PFailed /\ ~ (c_phase s = PConnected /\ c_busy s = false))).
      { destruct (c_phase s); try (right; right; split; intros; try discriminate; intros [? ?]; discriminate); auto. destruct (c_busy s); auto. right; right. split; [discriminate|intros [? ?]; discriminate]. }
      destruct CC as [P|[[P Bz]|[P1 P2]]].
      * rewrite P in H. injection H as <- <-. destruct I as [A B C D E F G K L M N O P' Q]. rewrite Ep, P in *.
        assert (NC : curid (c_cur s) <> Some c).
        { intros X. assert (cnt c (accepts tr) <= 1) by (rewrite A; apply (proj1 (NoDup_count_occ Nat.eq_dec (seq 0 (c_next s))) (seq_NoDup _ _) c)).
          rewrite B in H. rewrite hcalls_call, cnt_cons in H. destruct (Nat.eq_dec c c); [|congruence].
          destruct (c_cur s) as [[d o|d o]|]; cbn in X; try discriminate; injection X as ->; cbn [curl] in H; rewrite cnt_cons in H; destruct (Nat.eq_dec c c); try congruence; lia. }
        constructor; cbn [set_posts c_servers c_phase c_sock c_stopped c_next c_queue c_busy c_cur c_peeks c_losses c_posts]; rewrite ?accepts_app, ?answers_app, ?sends_app, ?oks_app, ?flies_app, ?conn_app; cbn [accepts answers sends oks conn_events flat_map app]; rewrite ?app_nil_r; auto; try congruence.
        -- intros d. rewrite B, cnt_app. rewrite hcalls_call. rewrite !cnt_cons, cnt_nil. lia.
        -- intros _ X. destruct (C eq_refl X) as [?|?]; [discriminate|assumption].
        -- rewrite P; discriminate.
        -- eapply sub_trans; [exact K|]. rewrite hcalls_call. rewrite !app_assoc. apply sub_drop.
        -- apply one_app. split; [exact M|]. rewrite N. cbn. destruct (curid (c_cur s)) as [d|]; [|split; [discriminate|exact Logic.I]].
           destruct (Nat.eqb_spec c d); [exact Logic.I|]. split; [discriminate|exact Logic.I].
        -- rewrite N. cbn. destruct (curid (c_cur s)) as [d|] eqn:Ed; [|reflexivity]. destruct (Nat.eqb_spec c d); [congruence|reflexivity].
        -- rewrite P. reflexivity.
      * rewrite P, Bz in H. apply some_pair in H.
        assert (QN : c_queue s = []) by (apply (i_idle _ _ I); auto).
        assert (SE : set_queue [] (set_posts ps s) = set_posts ps s) by (destruct s; cbn in *; subst; reflexivity).
        assert (s' = fst (send c (set_queue [] (set_posts ps s)))) as -> by (rewrite SE, H; reflexivity).
        assert (e = snd (send c (set_queue [] (set_posts ps s)))) as -> by (rewrite SE, H; reflexivity).
        apply send_inv; [|left; cbn; congruence|cbn; rewrite P; reflexivity].
        pose proof (inv_x s tr I (i_cur _ _ I Bz)) as [A B X C E F G H' Q J K L]. rewrite Ep, P, QN in *. cbn in *.
        constructor; cbn [set_queue set_posts c_servers c_phase c_sock c_stopped c_next c_queue c_busy c_cur c_peeks c_losses c_posts]; auto; try congruence.
        -- intros d. rewrite B, hcalls_call, !cnt_cons, !cnt_nil. lia.
        -- rewrite P. exact J.
      * assert (H' : Some (set_queue (c_queue s ++ [c]) (set_posts ps s), @nil cev) = Some (s', e)).
        { destruct (c_phase s); try exact H; [|congruence]. destruct (c_busy s); [exact H|exfalso; apply P2; auto]. }
        clear H. injection H' as <- <-. rewrite app_nil_r. destruct I as [A B C D E F G K L M N O P' Q]. rewrite Ep in *.
        constructor; cbn [set_queue set_posts c_servers c_phase c_sock c_stopped c_next c_queue c_busy c_cur c_peeks c_losses c_posts]; auto; try congruence.
        -- intros d. rewrite B. rewrite hcalls_call. rewrite cnt_app, !cnt_cons, cnt_nil. lia.
        -- intros X Y. exfalso. auto.
        -- rewrite <- !app_assoc. exact K.
    + destruct (c_queue s) as [|c q] eqn:Eq.
      * injection H as <- <-. rewrite app_nil_r. destruct I as [A B C D E F G K L M N O P' Q]. rewrite Ep, Eq in *.
        constructor; cbn [set_queue set_posts c_servers c_phase c_sock c_stopped c_next c_queue c_busy c_cur c_peeks c_losses c_posts]; rewrite ?Eq; auto; try congruence.
      * injection H as <- <-. destruct I as [A B C D E F G K L M N O P' Q]. rewrite Ep, Eq in *.
        assert (NC : curid (c_cur s) <> Some c).
        { intros X. assert (cnt c (accepts tr) <= 1) by (rewrite A; apply (proj1 (NoDup_count_occ Nat.eq_dec (seq 0 (c_next s))) (seq_NoDup _ _) c)).
          rewrite B in H. rewrite cnt_cons in H. destruct (Nat.eq_dec c c); [|congruence].
          destruct (c_cur s) as [[d o|d o]|]; cbn in X; try discriminate; injection X as ->; cbn [curl] in H; rewrite cnt_cons in H; destruct (Nat.eq_dec c c); try congruence; lia. }
        assert (HF : hcalls (ps ++ if is_nil q then [] else [HFlush]) = hcalls ps) by (rewrite hcalls_app; destruct (is_nil q); cbn; rewrite app_nil_r; reflexivity).
        rewrite hcalls_flush in B, K.
        constructor; cbn [set_queue set_posts c_servers c_phase c_sock c_stopped c_next c_queue c_busy c_cur c_peeks c_losses c_posts]; rewrite ?accepts_app, ?answers_app, ?sends_app, ?oks_app, ?flies_app, ?conn_app, ?HF; cbn [accepts answers sends oks conn_events flat_map app]; rewrite ?app_nil_r; auto; try congruence.
        -- intros d. rewrite B, cnt_app, !cnt_cons, cnt_nil. lia.
        -- intros _ X. apply in_or_app. right. destruct q; [congruence|left; reflexivity].
        -- intros X Y. specialize (D X Y). discriminate.
        -- eapply sub_trans; [exact K|]. apply sub_drop.
        -- apply one_app. split; [exact M|]. rewrite N. cbn. destruct (curid (c_cur s)) as [d|]; [|split; [discriminate|exact Logic.I]].
           destruct (Nat.eqb_spec c d); [exact Logic.I|]. split; [discriminate|exact Logic.I].
        -- rewrite N. cbn. destruct (curid (c_cur s)) as [d|] eqn:Ed; [|reflexivity]. destruct (Nat.eqb_spec c d); [congruence|reflexivity].
  - (* resolve *) destruct (c_phase s) as [i|i|o|o| |] eqn:Ep; try discriminate. destruct ok.
    + injection H as <- <-. rewrite app_nil_r. eapply inv_same; eauto. right. rewrite Ep. auto.
    + destruct (Nat.ltb (Datatypes.S i) (c_servers s)).
      * injection H as <- <-. rewrite app_nil_r. eapply inv_same; eauto. right. rewrite Ep. auto.
      * apply some_pair in H. pose proof (loss_inv s tr (pre_x s tr I ltac:(rewrite Ep; reflexivity))) as K. rewrite H in K. exact K.
  - (* connect *) destruct (c_phase s) as [i|i|o|o| |] eqn:Ep; try discriminate. destruct ok.
    + injection H as <- <-. rewrite app_nil_r. eapply inv_same; eauto. right. rewrite Ep. auto.
    + destruct (Nat.ltb (Datatypes.S i) (c_servers s)).
      * injection H as <- <-. rewrite app_nil_r. eapply inv_same; eauto. right. rewrite Ep. auto.
      * apply some_pair in H. pose proof (loss_inv s tr (pre_x s tr I ltac:(rewrite Ep; reflexivity))) as K. rewrite H in K. exact K.
  - (* handshake sent *) destruct (c_phase s) as [i|i|o|o| |] eqn:Ep; try discriminate. destruct ok.
    + destruct o; [|discriminate]. injection H as <- <-. rewrite app_nil_r. eapply inv_same; eauto. right. rewrite Ep. auto.
    + apply some_pair in H. pose proof (loss_inv s tr (pre_x s tr I ltac:(rewrite Ep; reflexivity))) as K. rewrite H in K. exact K.
  - (* handshake received *) destruct (c_phase s) as [i|i|o|o| |] eqn:Ep; try discriminate.
    assert (PX : InvX s tr) by (apply pre_x; [exact I|rewrite Ep; reflexivity]). destruct r.
    + destruct o; [|discriminate]. apply with_events_inv in H. destruct H as [-> ->]. rewrite app_assoc. apply next_inv; [|reflexivity].
      destruct PX as [A B X C E F G H' Q J K L]. rewrite Ep in *.
      constructor; cbn [set_phase c_servers c_phase c_sock c_stopped c_next c_queue c_busy c_cur c_peeks c_losses c_posts]; rewrite ?accepts_app, ?answers_app, ?sends_app, ?oks_app, ?flies_app, ?conn_app; cbn [accepts answers sends oks conn_events flies flat_map app]; rewrite ?app_nil_r; auto; try congruence.
      * apply one_app. cbn. auto.
      * rewrite J. reflexivity.
      * rewrite J. cbn. auto.
    + destruct o; [|discriminate]. apply some_pair in H. pose proof (loss_inv s tr PX) as K. rewrite H in K. exact K.
    + apply some_pair in H. pose proof (loss_inv s tr PX) as K. rewrite H in K. exact K.
  - (* sent *) destruct (c_cur s) as [[c o|c o]|] eqn:Ec; try discriminate. destruct ok.
    + destruct o; [|discriminate]. injection H as <- <-. rewrite app_nil_r. destruct I as [A B C D E F G K L M N O P Q]. rewrite Ec in *.
      constructor; cbn [set_cur c_servers c_phase c_sock c_stopped c_next c_queue c_busy c_cur c_peeks c_losses c_posts curl curid] in *; auto; try congruence.
      intros X. specialize (F X). discriminate.
    + injection H as <- <-. pose proof (answered_x s tr c AClosed I ltac:(rewrite Ec; reflexivity) ltac:(rewrite Ec; reflexivity)) as [A B X C E F G H' Q J K L].
      assert (BZ : c_busy s = true) by (destruct (c_busy s) eqn:Bz; [reflexivity|rewrite (i_cur _ _ I Bz) in Ec; discriminate]).
      constructor; cbn [set_losses set_cur c_servers c_phase c_sock c_stopped c_next c_queue c_busy c_cur c_peeks c_losses c_posts curl curid] in *; auto; try congruence; try lia.
      * intros d. rewrite B, cnt_nil. lia.
      * rewrite app_nil_r. exact F.
  - (* received *) destruct (c_cur s) as [[c o|c o]|] eqn:Ec; try discriminate.
    assert (PC : pre (c_phase s) = false).
    { destruct (pre (c_phase s)) eqn:Ep; [|reflexivity]. rewrite (i_cur _ _ I (i_pre _ _ I Ep)) in Ec. discriminate. }
    assert (AX : forall a, InvX (set_cur None s) (tr ++ [EvAnswer c a])) by (intros a; apply answered_x; [exact I|rewrite Ec; reflexivity|rewrite Ec; reflexivity]).
    destruct r.
    + destruct o; [|discriminate]. apply with_events_inv in H. destruct H as [-> ->]. rewrite app_assoc. apply next_inv; [apply AX|exact PC].
    + destruct o; [|discriminate]. apply with_events_inv in H. destruct H as [-> ->]. rewrite app_assoc. apply loss_inv, AX.
    + apply with_events_inv in H. destruct H as [-> ->]. rewrite app_assoc. apply loss_inv, AX.
  - (* peek *) destruct (nth_error (c_peeks s) k) as [o|]; [|discriminate].
    set (s1 := set_peeks (firstn k (c_peeks s) ++ skipn (Datatypes.S k) (c_peeks s)) s) in *.
    assert (I1 : Inv s1 tr) by (eapply inv_same; eauto).
    destruct ok; [destruct o; [|discriminate]; injection H as <- <-; rewrite app_nil_r; exact I1|].
    apply some_pair in H. pose proof (loss_inv' s1 tr I1) as K. rewrite H in K. exact K.
  - (* loss *) destruct (c_losses s) as [|n] eqn:El; [discriminate|]. apply some_pair in H.
    pose proof (loss_inv2 s n tr I) as K. rewrite H in K. exact K.
Qed.

Lemma run_inv ops : forall s tr s' e, Inv s tr -> c_run ops s = Some (s', e) -> Inv s' (tr ++ e).
Proof.
  induction ops as [|op ops IH]; intros s tr s' e I H; cbn in H.
  - injection H as <- <-. rewrite app_nil_r. exact I.
  - destruct (c_step op s) as [[s1 e1]|] eqn:E1; [|discriminate]. destruct (c_run ops s1) as [[s2 e2]|] eqn:E2; [|discriminate].
    injection H as <- <-. rewrite app_assoc. eapply IH; eauto. eapply step_inv; eauto.
Qed.
Lemma init_inv n ops s tr : c_run ops (c_init n) = Some (s, tr) -> Inv s tr.
Proof. intros H. apply (run_inv ops (c_init n) [] s tr (inv_init n) H). Qed.

(** ** Exactly one answer *)
Lemma at_most_lemma n ops s tr : c_run ops (c_init n) = Some (s, tr) -> NoDup (answers tr) /\ incl (answers tr) (accepts tr).
Proof.
  intros H. pose proof (init_inv _ _ _ _ H) as I. split.
  - apply (NoDup_count_occ Nat.eq_dec). intros c. pose proof (acc_once s tr c I). rewrite (i_cnt _ _ I) in H0. unfold cnt in *. lia.
  - intros c C. apply (count_occ_In Nat.eq_dec) in C. apply (count_occ_In Nat.eq_dec). pose proof (i_cnt _ _ I c). unfold cnt in *. lia.
Qed.
Lemma settled_shape s : settled s -> c_posts s = [] /\ c_cur s = None /\ c_losses s = 0 /\ pre (c_phase s) = false.
Proof.
  intros St.
  assert (G : forall op, internal op = true -> c_step op s <> None -> (forall k ok, op <> CPeeked k ok) -> False).
  { intros op I S N. destruct (St op I S) as [k [ok E]]. exact (N k ok E). }
  repeat split.
  - destruct (c_posts s) as [|p ps] eqn:E; [reflexivity|]. exfalso. apply (G CPost); [reflexivity| |discriminate].
    cbn [c_step]. rewrite E. destruct p as [c|]; [destruct (c_phase s); try discriminate; destruct (c_busy s); discriminate|destruct (c_queue s); discriminate].
  - destruct (c_cur s) as [[c o|c o]|] eqn:E; [exfalso|exfalso|reflexivity].
    + apply (G (CSent false)); [reflexivity|cbn [c_step]; rewrite E; discriminate|discriminate].
    + apply (G (CReceived RError)); [reflexivity|cbn [c_step]; rewrite E; discriminate|discriminate].
  - destruct (c_losses s) eqn:E; [reflexivity|]. exfalso. apply (G CLoss); [reflexivity|cbn [c_step]; rewrite E; discriminate|discriminate].
  - destruct (c_phase s) as [i|i|o|o| |] eqn:E; try reflexivity; exfalso.
    + apply (G (CResolve true)); [reflexivity|cbn [c_step]; rewrite E; discriminate|discriminate].
    + apply (G (CConnect true)); [reflexivity|cbn [c_step]; rewrite E; discriminate|discriminate].
    + apply (G (CHsSent false)); [reflexivity|cbn [c_step]; rewrite E; discriminate|discriminate].
    + apply (G (CHsReceived HsError)); [reflexivity|cbn [c_step]; rewrite E; discriminate|discriminate].
Qed.
Lemma settled_lemma n ops s tr : c_run ops (c_init n) = Some (s, tr) -> settled s -> Permutation (answers tr) (accepts tr).
Proof.
  intros H St. pose proof (init_inv _ _ _ _ H) as I. destruct (settled_shape s St) as [P [C [L Ph]]].
  assert (Q : c_queue s = []).
  { destruct (c_phase s) eqn:E; try discriminate Ph.
    - destruct (c_busy s) eqn:B; [|apply (i_idle _ _ I); auto]. pose proof (i_busy _ _ I E B C). lia.
    - destruct (c_queue s) eqn:Eq; [reflexivity|]. exfalso. pose proof (i_flush _ _ I E) as F. rewrite Eq, P in F. apply F. discriminate. }
  apply (Permutation_count_occ Nat.eq_dec). intros c. pose proof (i_cnt _ _ I c) as K. rewrite P, Q, C, hcalls_nil in K. cbn [curl] in K.
  unfold cnt in K. cbn [count_occ] in K. lia.
Qed.

(** ** Work left *)
Definition w_phase (n : nat) (p : phase) : nat :=
  match p with
  | PResolve i => 7 + 2 * (n - i) | PConnecting i => 6 + 2 * (n - i) | PHsSend _ => 5 | PHsRecv _ => 4 | PConnected => 2 | PFailed => 0
  end.
Definition w_post (p : post) : nat := match p with HCall _ => 6 | HFlush => 1 end.
Definition w_cur (f : option flight) : nat := match f with Some (Sending _ _) => 4 | Some (Receiving _ _) => 3 | None => 0 end.
Definition w_posts (l : list post) : nat := fold_right (fun p n => w_post p + n) 0 l.
Lemma w_posts_app a b : w_posts (a ++ b) = w_posts a + w_posts b.
Proof. unfold w_posts. induction a as [|p a IH]; cbn [app fold_right]; [reflexivity|]. rewrite IH. lia. Qed.
Definition work (s : cli) : nat :=
  w_phase (c_servers s) (c_phase s) + w_posts (c_posts s) + 5 * length (c_queue s) + w_cur (c_cur s) + length (c_peeks s) + c_losses s.
Arguments w_posts : simpl never.
Lemma w_posts_cons p l : w_posts (p :: l) = w_post p + w_posts l. Proof. reflexivity. Qed.
Lemma w_posts_nil : w_posts [] = 0. Proof. reflexivity. Qed.
Lemma work_next s : c_cur s = None -> work (fst (next s)) <= work s + 1.
Proof.
  intros C. unfold next. destruct (c_queue s) as [|c q] eqn:Eq; unfold work; cbn [fst send set_queue c_servers c_phase c_sock c_stopped c_next c_queue c_busy c_cur c_peeks c_losses c_posts]; rewrite C, ?Eq.
  - rewrite app_length. cbn [length w_cur]. lia.
  - cbn [length w_cur]. lia.
Qed.
Lemma work_loss s : work (fst (loss s)) <= work s /\ (c_phase s <> PFailed -> work (fst (loss s)) < work s).
Proof.
  unfold loss, work. destruct (c_phase s) eqn:Ep; cbn [fst set_posts set_phase set_sock c_servers c_phase c_sock c_stopped c_next c_queue c_busy c_cur c_peeks c_losses c_posts];
    rewrite ?Ep, ?w_posts_app; destruct (is_nil (c_queue s)); rewrite ?w_posts_cons, ?w_posts_nil; cbn [w_phase w_post]; split; intros; try lia; try congruence.
Qed.
Lemma remove_nth {A} (l : list A) k x : nth_error l k = Some x -> Datatypes.S (length (firstn k l ++ skipn (Datatypes.S k) l)) = length l.
Proof.
  intros H. pose proof (proj1 (nth_error_Some l k) ltac:(congruence)). rewrite app_length, firstn_length, skipn_length. lia.
Qed.
Lemma fst_eq {A B} (p : A * B) a b : p = (a, b) -> a = fst p.
Proof. intros ->. reflexivity. Qed.
Lemma work_step op s s' e : (pre (c_phase s) = true -> c_cur s = None) -> c_step op s = Some (s', e) ->
  if internal op then work s' < work s else work s' <= work s + (if is_call op then 6 else 0).
Proof.
  intros PC H. destruct op; cbn [c_step internal is_call] in *.
  - destruct (c_stopped s); injection H as <- <-; unfold work; cbn [c_servers c_phase c_sock c_stopped c_next c_queue c_busy c_cur c_peeks c_losses c_posts]; rewrite ?w_posts_app, ?w_posts_cons, ?w_posts_nil; cbn [w_post]; lia.
  - injection H as <- <-. unfold work. cbn. lia.
  - destruct (c_posts s) as [|[c|] ps] eqn:Ep; [discriminate| |].
    + assert (C : work s' = work s - 1 \/ (work s' = work s - 2 /\ c_cur s = None) \/ work s' = work s - 6 \/ work s' < work s).
      { right. right. right. destruct (c_phase s) eqn:Es; try (injection H as <- <-; unfold work; cbn [set_queue set_posts c_servers c_phase c_sock c_stopped c_next c_queue c_busy c_cur c_peeks c_losses c_posts]; rewrite Ep, ?Es, ?app_length, w_posts_cons; cbn [w_post length]; lia).
        destruct (c_busy s); apply some_pair in H; apply fst_eq in H; subst s'; unfold work; cbn [fst send set_queue set_posts c_servers c_phase c_sock c_stopped c_next c_queue c_busy c_cur c_peeks c_losses c_posts]; rewrite Ep, ?Es, ?app_length, w_posts_cons; cbn [w_post w_cur length]; lia. }
      destruct C as [C|[[C _]|[C|C]]]; try lia.
      all: unfold work in *; rewrite Ep, w_posts_cons in *; cbn [w_post] in *; lia.
    + destruct (c_queue s) as [|c q] eqn:Eq; injection H as <- <-; unfold work; cbn [set_queue set_posts c_servers c_phase c_sock c_stopped c_next c_queue c_busy c_cur c_peeks c_losses c_posts]; rewrite Ep, ?Eq, ?w_posts_cons, ?w_posts_app; cbn [w_post]; [lia|].
      destruct (is_nil q); rewrite ?w_posts_cons, ?w_posts_nil; cbn [w_post length]; lia.
  - destruct (c_phase s) as [i|i|o|o| |] eqn:Es; try discriminate. destruct ok; [injection H as <- <-; unfold work; cbn [set_phase set_sock c_servers c_phase c_sock c_stopped c_next c_queue c_busy c_cur c_peeks c_losses c_posts]; rewrite Es; cbn [w_phase]; lia|].
    destruct (Nat.ltb_spec (Datatypes.S i) (c_servers s)).
    + injection H as <- <-. unfold work; cbn [set_phase set_sock c_servers c_phase c_sock c_stopped c_next c_queue c_busy c_cur c_peeks c_losses c_posts]; rewrite Es; cbn [w_phase]. lia.
    + apply some_pair in H. apply fst_eq in H. subst s'. apply work_loss. congruence.
  - destruct (c_phase s) as [i|i|o|o| |] eqn:Es; try discriminate. destruct ok; [injection H as <- <-; unfold work; cbn [set_phase set_sock c_servers c_phase c_sock c_stopped c_next c_queue c_busy c_cur c_peeks c_losses c_posts]; rewrite Es; cbn [w_phase]; lia|].
    destruct (Nat.ltb_spec (Datatypes.S i) (c_servers s)).
    + injection H as <- <-. unfold work; cbn [set_phase set_sock c_servers c_phase c_sock c_stopped c_next c_queue c_busy c_cur c_peeks c_losses c_posts]; rewrite Es; cbn [w_phase]. lia.
    + apply some_pair in H. apply fst_eq in H. subst s'. apply work_loss. congruence.
  - destruct (c_phase s) as [i|i|o|o| |] eqn:Es; try discriminate. destruct ok.
    + destruct o; [|discriminate]. injection H as <- <-; unfold work; cbn [set_phase set_sock c_servers c_phase c_sock c_stopped c_next c_queue c_busy c_cur c_peeks c_losses c_posts]; rewrite Es; cbn [w_phase]; lia.
    + apply some_pair in H. apply fst_eq in H. subst s'. apply work_loss. congruence.
  - destruct (c_phase s) as [i|i|o|o| |] eqn:Es; try discriminate.
    destruct r; [destruct o; [|discriminate]|destruct o; [|discriminate]|].
    + apply with_events_inv in H. destruct H as [-> _]. specialize (PC eq_refl).
      pose proof (work_next (set_phase PConnected s) PC). unfold work in *. cbn [set_phase c_servers c_phase c_sock c_stopped c_next c_queue c_busy c_cur c_peeks c_losses c_posts w_phase] in *. rewrite Es. cbn [w_phase]. lia.
    + apply some_pair in H. apply fst_eq in H. subst s'. apply work_loss. congruence.
    + apply some_pair in H. apply fst_eq in H. subst s'. apply work_loss. congruence.
  - destruct (c_cur s) as [[c o|c o]|] eqn:Ec; try discriminate. destruct ok.
    + destruct o; [|discriminate]. injection H as <- <-. unfold work; cbn [set_cur c_servers c_phase c_sock c_stopped c_next c_queue c_busy c_cur c_peeks c_losses c_posts]; rewrite Ec; cbn [w_cur]. lia.
    + injection H as <- <-. unfold work; cbn [set_losses set_cur c_servers c_phase c_sock c_stopped c_next c_queue c_busy c_cur c_peeks c_losses c_posts]; rewrite Ec; cbn [w_cur]. lia.
  - destruct (c_cur s) as [[c o|c o]|] eqn:Ec; try discriminate.
    assert (WC : work (set_cur None s) + 3 = work s) by (unfold work; cbn [set_cur c_servers c_phase c_sock c_stopped c_next c_queue c_busy c_cur c_peeks c_losses c_posts]; rewrite Ec; cbn [w_cur]; lia).
    destruct r; [destruct o; [|discriminate]|destruct o; [|discriminate]|]; apply with_events_inv in H; destruct H as [-> _].
    + pose proof (work_next (set_cur None s) eq_refl). lia.
    + pose proof (proj1 (work_loss (set_cur None s))). lia.
    + pose proof (proj1 (work_loss (set_cur None s))). lia.
  - destruct (nth_error (c_peeks s) k) as [o|] eqn:En; [|discriminate].
    set (s1 := set_peeks (firstn k (c_peeks s) ++ skipn (Datatypes.S k) (c_peeks s)) s) in *.
    assert (W1 : work s1 < work s) by (unfold work, s1; cbn [set_peeks c_servers c_phase c_sock c_stopped c_next c_queue c_busy c_cur c_peeks c_losses c_posts]; pose proof (remove_nth _ _ _ En); lia).
    destruct ok; [destruct o; [|discriminate]; injection H as <- <-; exact W1|].
    apply some_pair in H. apply fst_eq in H. subst s'. pose proof (proj1 (work_loss s1)). lia.
  - destruct (c_losses s) as [|n] eqn:El; [discriminate|]. apply some_pair in H. apply fst_eq in H. subst s'.
    pose proof (proj1 (work_loss (set_losses n s))). assert (work (set_losses n s) < work s) by (unfold work; cbn [set_losses c_servers c_phase c_sock c_stopped c_next c_queue c_busy c_cur c_peeks c_losses c_posts]; lia). lia.
Qed.
Lemma work_run ops : forall s tr s' e, Inv s tr -> c_run ops s = Some (s', e) ->
  work s' + length (filter internal ops) <= work s + 6 * length (filter is_call ops).
Proof.
  induction ops as [|op ops IH]; intros s tr s' e I H; cbn [c_run] in H.
  - injection H as <- <-. cbn. lia.
  - destruct (c_step op s) as [[s1 e1]|] eqn:E1; [|discriminate]. destruct (c_run ops s1) as [[s2 e2]|] eqn:E2; [|discriminate].
    injection H as <- <-. specialize (IH s1 (tr ++ e1) s2 e2 (step_inv _ _ _ _ _ I E1) E2).
    pose proof (work_step op s s1 e1 (fun P => i_cur _ _ I (i_pre _ _ I P)) E1) as W.
    cbn [filter]. destruct op; cbn [internal is_call] in *; cbn [length]; lia.
Qed.
Lemma steps_lemma n ops s tr : c_run ops (c_init n) = Some (s, tr) ->
  length (filter internal ops) <= 7 + 2 * n + 6 * length (filter is_call ops).
Proof.
  intros H. pose proof (work_run ops (c_init n) [] s tr (inv_init n) H) as W. unfold work in W. cbn [c_init c_servers c_phase c_posts c_queue c_cur c_peeks c_losses w_phase w_cur length] in W.
  rewrite w_posts_nil in W. lia.
Qed.

(** ** Order *)
Lemma sub_prefix {A} (a b c : list A) : subseq (a ++ b) c -> subseq a c.
Proof. intros H. eapply sub_trans; [exact H|]. rewrite <- (app_nil_r a) at 1. apply sub_app; [apply sub_refl|apply sub_nil_l]. Qed.
Lemma order_lemma n ops s tr : c_run ops (c_init n) = Some (s, tr) -> subseq (sends tr) (accepts tr) /\ subseq (oks tr) (sends tr) /\ one_at_a_time None tr.
Proof.
  intros H. pose proof (init_inv _ _ _ _ H) as I. split; [apply (sub_prefix _ _ _ (i_order _ _ I))|]. split; [apply (sub_prefix _ _ _ (i_oks _ _ I))|apply (i_one _ _ I)].
Qed.
Lemma conn_lemma n ops s tr : c_run ops (c_init n) = Some (s, tr) ->
  (conn_events tr = [] \/ conn_events tr = [true] \/ conn_events tr = [true; false]) /\ (c_phase s = PConnected <-> conn_events tr = [true]).
Proof.
  intros H. pose proof (init_inv _ _ _ _ H) as I. split; [apply (i_conn2 _ _ I)|]. split; intros K.
  - pose proof (i_conn _ _ I) as C. rewrite K in C. exact C.
  - pose proof (i_conn _ _ I) as C. rewrite K in C. destruct (c_phase s) eqn:E; try discriminate C; [reflexivity|]. exfalso. apply (i_conn3 _ _ I E K).
Qed.

(** ** Stopping *)
Lemma stopped_step op s s' e : c_stopped s = true -> c_step op s = Some (s', e) -> c_stopped s' = true /\ accepts e = [].
Proof.
  intros St H.
  assert (NX : forall s, c_stopped (fst (next s)) = c_stopped s /\ accepts (snd (next s)) = []) by (intros t; unfold next; destruct (c_queue t); cbn; auto).
  assert (LX : forall s, c_stopped (fst (loss s)) = c_stopped s /\ accepts (snd (loss s)) = []) by (intros t; unfold loss; destruct (c_phase t); cbn; auto).
  assert (LS : forall s0, c_stopped s0 = true -> Some (loss s0) = Some (s', e) -> c_stopped s' = true /\ accepts e = []).
  { intros s0 S0 E. apply some_pair in E. destruct (LX s0) as [L1 L2]. rewrite E in L1, L2. cbn [fst snd] in L1, L2. split; congruence. }
  destruct op; cbn [c_step] in H.
  - rewrite St in H. injection H as <- <-. auto.
  - injection H as <- <-. auto.
  - destruct (c_posts s) as [|[c|] ps]; [discriminate| |].
    + destruct (c_phase s); try (injection H as <- <-; auto). destruct (c_busy s); injection H as <- <-; auto.
    + destruct (c_queue s); injection H as <- <-; auto.
  - destruct (c_phase s); try discriminate. destruct ok; [injection H as <- <-; auto|]. destruct (Nat.ltb (Datatypes.S i) (c_servers s)); [injection H as <- <-; auto|eauto].
  - destruct (c_phase s); try discriminate. destruct ok; [injection H as <- <-; auto|]. destruct (Nat.ltb (Datatypes.S i) (c_servers s)); [injection H as <- <-; auto|eauto].
  - destruct (c_phase s); try discriminate. destruct ok; [destruct opened; [|discriminate]; injection H as <- <-; auto|eauto].
  - destruct (c_phase s); try discriminate. destruct r; [destruct opened; [|discriminate]|destruct opened; [|discriminate]|]; eauto.
    apply with_events_inv in H. destruct H as [-> ->]. destruct (NX (set_phase PConnected s)) as [N1 N2]. rewrite accepts_app, N1, N2. auto.
  - destruct (c_cur s) as [[c o|c o]|]; try discriminate. destruct ok; [destruct o; [|discriminate]|]; injection H as <- <-; auto.
  - destruct (c_cur s) as [[c o|c o]|]; try discriminate.
    destruct (NX (set_cur None s)) as [N1 N2], (LX (set_cur None s)) as [L1 L2].
    destruct r; [destruct o; [|discriminate]|destruct o; [|discriminate]|]; apply with_events_inv in H; destruct H as [-> ->]; rewrite accepts_app, ?N1, ?N2, ?L1, ?L2; auto.
  - destruct (nth_error (c_peeks s) k) as [o|]; [|discriminate]. destruct ok; [destruct o; [|discriminate]; injection H as <- <-; auto|]. eapply LS; [|exact H]. exact St.
  - destruct (c_losses s); [discriminate|]. eapply LS; [|exact H]. exact St.
Qed.
Lemma stopped_run ops : forall s s' e, c_stopped s = true -> c_run ops s = Some (s', e) -> accepts e = [].
Proof.
  induction ops as [|op ops IH]; intros s s' e St H; cbn in H; [injection H as <- <-; reflexivity|].
  destruct (c_step op s) as [[s1 e1]|] eqn:E1; [|discriminate]. destruct (c_run ops s1) as [[s2 e2]|] eqn:E2; [|discriminate]. injection H as <- <-.
  destruct (stopped_step _ _ _ _ St E1) as [S1 A1]. rewrite accepts_app, A1. cbn. eapply IH; eauto.
Qed.
Lemma run_app ops1 : forall ops2 s s2 tr, c_run (ops1 ++ ops2) s = Some (s2, tr) ->
  exists s1 e1 e2, c_run ops1 s = Some (s1, e1) /\ c_run ops2 s1 = Some (s2, e2) /\ tr = e1 ++ e2.
Proof.
  induction ops1 as [|op ops1 IH]; intros ops2 s s2 tr H; cbn in H.
  - exists s, [], tr. auto.
  - destruct (c_step op s) as [[s1 e1]|] eqn:E1; [|discriminate]. destruct (c_run (ops1 ++ ops2) s1) as [[s3 e3]|] eqn:E2; [|discriminate].
    injection H as <- <-. destruct (IH _ _ _ _ E2) as [s4 [a [b [R1 [R2 ->]]]]]. exists s4, (e1 ++ a), b. cbn. rewrite E1, R1, app_assoc. auto.
Qed.

(** A request whose sending begins on the closed socket is never answered successfully. *)
Definition opened_cur (f : option flight) : option nat := match f with Some (Sending c true) | Some (Receiving c true) => Some c | _ => None end.
Record Cut (s : cli) (e : list cev) : Prop := {
  k_sock : c_sock s = false;
  k_phase : connecting (c_phase s) = false;
  k_cur : forall c, opened_cur (c_cur s) = Some c -> ~ In c (sends e);
  k_oks : forall c, In c (oks e) -> ~ In c (sends e) }.
Lemma oks_answers e c : In c (oks e) -> In c (answers e).
Proof.
  unfold oks, answers. rewrite !in_flat_map. intros [x [X1 X2]]. exists x. split; [exact X1|]. destruct x; try contradiction. destruct a; auto; contradiction.
Qed.
Lemma not_answered s tr c : (forall c, cnt c (accepts tr) <= 1) -> (forall c, cnt c (answers tr) + cnt c (hcalls (c_posts s)) + cnt c (c_queue s) <= cnt c (accepts tr)) ->
  cnt c (hcalls (c_posts s)) + cnt c (c_queue s) > 0 -> ~ In c (answers tr).
Proof. intros A B C K. apply (count_occ_In Nat.eq_dec) in K. specialize (A c). specialize (B c). unfold cnt in *. lia. Qed.
Lemma cnt_head c q : cnt c (c :: q) > 0.
Proof. rewrite cnt_cons. destruct (Nat.eq_dec c c); [lia|congruence]. Qed.

Lemma cut_same s s' e : Cut s e -> c_sock s' = false -> connecting (c_phase s') = false ->
  (forall c, opened_cur (c_cur s') = Some c -> opened_cur (c_cur s) = Some c) -> Cut s' e.
Proof. intros [A B C D] E1 E2 E3. constructor; auto. Qed.
Lemma cut_send s e c tr : Cut s e -> (forall d, In d (oks e) -> In d (answers tr)) -> ~ In c (answers tr) -> Cut (fst (send c s)) (e ++ snd (send c s)).
Proof.
  intros [A B C D] O N. constructor; cbn [fst snd send c_sock c_phase c_cur]; auto.
  - rewrite A. cbn. discriminate.
  - rewrite oks_app, sends_app. cbn. rewrite app_nil_r. intros d X Y. apply in_app_or in Y. destruct Y as [Y|[<-|[]]]; [apply (D d X Y)|]. apply N, O, X.
Qed.
Lemma cut_plain s s' e e' : Cut s e -> c_sock s' = false -> connecting (c_phase s') = false ->
  (forall c, opened_cur (c_cur s') = Some c -> opened_cur (c_cur s) = Some c) -> sends e' = [] -> oks e' = [] -> Cut s' (e ++ e').
Proof. intros [A B C D] E1 E2 E3 E4 E5. constructor; auto; rewrite ?oks_app, ?sends_app, ?E4, ?E5, ?app_nil_r; auto. Qed.
Lemma cut_loss s e : Cut s e -> Cut (fst (loss s)) (e ++ snd (loss s)).
Proof.
  intros K. eapply cut_plain; [exact K|..]; unfold loss; destruct (c_phase s) eqn:E; cbn; auto; try (destruct K as [_ K _ _]; rewrite E in K; discriminate).
  rewrite E. reflexivity.
Qed.
Lemma cut_next s e tr : Cut s e -> (forall c, In c (c_queue s) -> ~ In c (answers tr)) -> (forall d, In d (oks e) -> In d (answers tr)) -> Cut (fst (next s)) (e ++ snd (next s)).
Proof.
  intros K Q O. unfold next. destruct (c_queue s) as [|c q] eqn:Eq.
  - cbn [fst snd]. eapply cut_plain; [exact K|..]; cbn; auto; try apply K. discriminate.
  - apply (cut_send (set_queue q s) e c tr); auto; [|apply Q; left; reflexivity]. eapply cut_same; [exact K|..]; cbn; auto; apply K.
Qed.
Lemma cut_step op s tr e s' e' : Inv s (tr ++ e) -> Cut s e -> c_step op s = Some (s', e') -> Cut s' (e ++ e').
Proof.
  intros I K H. pose proof (fun c => acc_once s _ c I) as A1.
  assert (OE : forall d, In d (oks e) -> In d (answers (tr ++ e))) by (intros d D; rewrite answers_app; apply in_or_app; right; apply oks_answers, D).
  assert (B1 : forall c, cnt c (answers (tr ++ e)) + cnt c (hcalls (c_posts s)) + cnt c (c_queue s) <= cnt c (accepts (tr ++ e))) by (intros c; rewrite (i_cnt _ _ I c); lia).
  assert (QN : forall c, In c (c_queue s) -> ~ In c (answers (tr ++ e))).
  { intros c C. apply (not_answered s); auto. apply (count_occ_In Nat.eq_dec) in C. unfold cnt. lia. }
  pose proof (k_sock _ _ K) as KS. pose proof (k_phase _ _ K) as KP.
  destruct op; cbn [c_step] in H.
  - destruct (c_stopped s); injection H as <- <-; eapply cut_plain; try exact K; cbn; auto.
  - injection H as <- <-. eapply cut_plain; try exact K; cbn; auto.
  - destruct (c_posts s) as [|[c|] ps] eqn:Ep; [discriminate| |].
    + assert (CN : ~ In c (answers (tr ++ e))) by (apply (not_answered s); auto; rewrite Ep; auto; rewrite hcalls_call; pose proof (cnt_head c (hcalls ps)); lia).
      destruct (c_phase s) eqn:Es; try discriminate KP; try (injection H as <- <-; eapply cut_plain; try exact K; cbn; auto; rewrite ?Es; reflexivity).
      destruct (c_busy s); [injection H as <- <-; eapply cut_plain; try exact K; cbn; auto; rewrite ?Es; reflexivity|].
      apply some_pair in H. assert (s' = fst (send c (set_posts ps s))) as -> by (rewrite H; reflexivity). assert (e' = snd (send c (set_posts ps s))) as -> by (rewrite H; reflexivity).
      apply (cut_send _ e c (tr ++ e)); auto. eapply cut_same; [exact K|..]; cbn; auto. rewrite Es. reflexivity.
    + destruct (c_queue s); injection H as <- <-; eapply cut_plain; try exact K; cbn; auto.
  - destruct (c_phase s); try discriminate H; discriminate KP.
  - destruct (c_phase s); try discriminate H; discriminate KP.
  - destruct (c_phase s) eqn:Es; try discriminate H. destruct ok; [destruct opened; [|discriminate]; injection H as <- <-; eapply cut_plain; try exact K; cbn; auto|].
    apply some_pair in H. pose proof (cut_loss s e K) as L. rewrite H in L. exact L.
  - destruct (c_phase s) eqn:Es; try discriminate H. destruct r; [destruct opened; [|discriminate]|destruct opened; [|discriminate]|].
    + apply with_events_inv in H. destruct H as [-> ->]. rewrite app_assoc. apply (cut_next _ _ (tr ++ e)); auto.
      * eapply cut_plain; try exact K; cbn; auto.
      * intros d D. rewrite oks_app in D. cbn in D. rewrite app_nil_r in D. auto.
    + apply some_pair in H. pose proof (cut_loss s e K) as L. rewrite H in L. exact L.
    + apply some_pair in H. pose proof (cut_loss s e K) as L. rewrite H in L. exact L.
  - destruct (c_cur s) as [[c o|c o]|] eqn:Ec; try discriminate. destruct ok; [destruct o; [|discriminate]|]; injection H as <- <-; eapply cut_plain; try exact K; cbn; rewrite ?Ec; cbn; auto; try discriminate.
    destruct (c_sock s); [auto|discriminate].
  - destruct (c_cur s) as [[c o|c o]|] eqn:Ec; try discriminate.
    assert (KC : Cut (set_cur None s) e) by (eapply cut_same; [exact K|..]; cbn; auto; discriminate).
    assert (CN : forall d, In d (c_queue s) -> d <> c).
    { intros d D ->. apply (count_occ_In Nat.eq_dec) in D. pose proof (A1 c). rewrite (i_cnt _ _ I c), Ec in H0. cbn [curl] in H0. pose proof (cnt_head c []). unfold cnt in *. lia. }
    destruct r; [destruct o; [|discriminate]|destruct o; [|discriminate]|]; apply with_events_inv in H; destruct H as [-> ->]; rewrite app_assoc.
    + assert (NC : ~ In c (sends e)) by (apply (k_cur _ _ K); rewrite Ec; reflexivity).
      apply (cut_next _ _ ((tr ++ e) ++ [EvAnswer c AOk])).
      * destruct KC as [X1 X2 X3 X4]. constructor; auto; rewrite ?sends_app, ?oks_app; cbn; rewrite ?app_nil_r; auto.
        intros d D. apply in_app_or in D. destruct D as [D|[<-|[]]]; auto.
      * cbn. intros d D Y. rewrite answers_app in Y. cbn in Y. apply in_app_or in Y. destruct Y as [Y|[<-|[]]]; [apply (QN d D Y)|apply (CN c D eq_refl)].
      * intros d D. rewrite oks_app in D. rewrite answers_app. cbn in *. apply in_app_or in D. apply in_or_app. destruct D as [D|D]; auto.
    + apply cut_loss. eapply cut_plain; [exact KC|..]; cbn; auto.
    + apply cut_loss. eapply cut_plain; [exact KC|..]; cbn; auto.
  - destruct (nth_error (c_peeks s) k) as [o|]; [|discriminate].
    set (s1 := set_peeks (firstn k (c_peeks s) ++ skipn (Datatypes.S k) (c_peeks s)) s) in *.
    assert (K1 : Cut s1 e) by (eapply cut_same; [exact K|..]; cbn; auto).
    destruct ok; [destruct o; [|discriminate]; injection H as <- <-; rewrite app_nil_r; exact K1|].
    apply some_pair in H. pose proof (cut_loss s1 e K1) as L. rewrite H in L. exact L.
  - destruct (c_losses s) as [|n]; [discriminate|]. apply some_pair in H. assert (K1 : Cut (set_losses n s) e) by (eapply cut_same; [exact K|..]; cbn; auto).
    pose proof (cut_loss _ e K1) as L. rewrite H in L. exact L.
Qed.
Lemma cut_run ops : forall s tr e s' e', Inv s (tr ++ e) -> Cut s e -> c_run ops s = Some (s', e') -> Cut s' (e ++ e').
Proof.
  induction ops as [|op ops IH]; intros s tr e s' e' I K H; cbn in H; [injection H as <- <-; rewrite app_nil_r; exact K|].
  destruct (c_step op s) as [[s1 e1]|] eqn:E1; [|discriminate]. destruct (c_run ops s1) as [[s2 e2]|] eqn:E2; [|discriminate]. injection H as <- <-.
  rewrite app_assoc. apply (IH s1 tr (e ++ e1) s2 e2); auto.
  - rewrite app_assoc. eapply step_inv; eauto.
  - eapply cut_step; eauto.
Qed.
Lemma stop_lemma n ops1 ops2 s1 tr1 s2 tr2 : c_run ops1 (c_init n) = Some (s1, tr1) -> c_run (CStop :: ops2) s1 = Some (s2, tr2) ->
  accepts tr2 = [] /\ (connecting (c_phase s1) = false -> forall c, In c (sends tr2) -> ~ In c (oks tr2)).
Proof.
  intros H1 H2. cbn [c_run c_step] in H2. set (t := Cli (c_servers s1) (c_phase s1) false true _ _ _ _ _ _ _) in *.
  destruct (c_run ops2 t) as [[s3 e3]|] eqn:E; [|discriminate]. injection H2 as <- <-. cbn [app]. split.
  - apply (stopped_run ops2 t s3 e3 eq_refl E).
  - intros P c C O. pose proof (init_inv _ _ _ _ H1) as I.
    assert (I2 : Inv t (tr1 ++ [])) by (rewrite app_nil_r; eapply inv_same; eauto).
    assert (K : Cut t []) by (constructor; cbn; auto).
    pose proof (cut_run ops2 t tr1 [] s3 e3 I2 K E) as [_ _ _ D]. cbn in D. apply (D c O C).
Qed.

(** ** Counterexamples *)
Definition connect_ops : list cop := [CResolve true; CConnect true; CHsSent true; CHsReceived HsGood].
(** Call 0 is in flight, 1 queued, 2 posted when the connection is lost: 2 is answered before 1. *)
Definition error_order_ops : list cop := connect_ops ++ [CCall; CPost; CCall; CPost; CCall; CSent true; CReceived RError; CPost; CPost].
Lemma error_order_refuted : ~ (forall n ops s tr, c_run ops (c_init n) = Some (s, tr) -> subseq (answers tr) (accepts tr)).
Proof.
  intros H. destruct (c_run error_order_ops (c_init 1)) as [[s tr]|] eqn:E; [|vm_compute in E; discriminate].
  specialize (H 1 error_order_ops s tr E). vm_compute in E. injection E as <- <-. cbn in H.
  repeat match goal with K : subseq _ _ |- _ => inversion K; clear K; subst end.
Qed.
(** Stopped while the name of the server is looked up: the session connects, sends and receives. *)
Definition stop_ops : list cop := [CCall; CPost].
Definition after_stop_ops : list cop := CStop :: connect_ops ++ [CSent true; CReceived RGood].
Lemma stop_refuted : ~ (forall n ops1 ops2 s1 tr1 s2 tr2, c_run ops1 (c_init n) = Some (s1, tr1) -> c_run (CStop :: ops2) s1 = Some (s2, tr2) ->
  forall c, In c (sends tr2) -> ~ In c (oks tr2)).
Proof.
  intros H. destruct (c_run stop_ops (c_init 1)) as [[s tr]|] eqn:E; [|vm_compute in E; discriminate].
  destruct (c_run after_stop_ops s) as [[s2 tr2]|] eqn:E2; [|vm_compute in E; injection E as <- <-; vm_compute in E2; discriminate].
  specialize (H 1 stop_ops (connect_ops ++ [CSent true; CReceived RGood]) s tr s2 tr2 E E2 0).
  vm_compute in E. injection E as <- <-. vm_compute in E2. injection E2 as <- <-. apply H; cbn; auto.
Qed.
(** Data nobody asked for ends the watch over the idle connection. *)
Lemma watch_refuted : ~ (forall n ops s tr, c_run ops (c_init n) = Some (s, tr) -> c_phase s = PConnected -> exists op, internal op = true /\ c_step op s <> None).
Proof.
  intros H. destruct (c_run (connect_ops ++ [CPeeked 0 true]) (c_init 1)) as [[s tr]|] eqn:E; [|vm_compute in E; discriminate].
  destruct (H 1 _ s tr E) as [op [O N]]; vm_compute in E; injection E as <- <-; [reflexivity|]. apply N. destruct op; try discriminate O; try reflexivity. cbn. destruct k; reflexivity.
Qed.
(** For the example beside the theorems. *)
Definition c29_ops : list cop :=
  [CCall; CPost; CCall; CResolve false; CResolve true; CConnect true; CHsSent true; CHsReceived HsGood; CPost; CSent true; CCall; CReceived RGood; CPost;
   CSent true; CReceived RGood; CSent true; CReceived RError].
