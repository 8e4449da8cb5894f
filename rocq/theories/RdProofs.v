From Verif Require Import Base Sample RdModel RdSpec.
From Coq Require Import Sorted.

Definition idok (r : reader) (m : msg) : bool :=
  match rd_ids r with [] => true | _ => existsb (Z.eqb (m_id m)) (rd_ids r) end.
Definition ckres (c : rcfg) (r : reader) (m : msg) := check_clock (rc_drop_ooo c) (aget (m_tid m) (rd_clocks r)) (m_clock m).
Definition ckok c r m := fst (fst (fst (ckres c r m))).
Definition reaches c r m := rd_created r && layer_on c (m_layer m).
Definition fresh c r m := reaches c r m && negb (existsb (Z.eqb (m_hash m)) (rd_hashes r)).

Lemma count_eqb_refl r : negb (rd_count r =? rd_count r)%Z = false.
Proof. rewrite Z.eqb_refl. reflexivity. Qed.

Lemma takes_eq c r m : takes c r m = fresh c r m && idok r m && ckok c r m.
Proof.
  unfold takes, rd_apply, fresh, reaches, idok, ckok, ckres.
  destruct (rd_created r); cbn; [|now rewrite Z.eqb_refl].
  destruct (layer_on c (m_layer m)); cbn; [|now rewrite Z.eqb_refl].
  destruct (existsb (Z.eqb (m_hash m)) (rd_hashes r)); cbn; [now rewrite Z.eqb_refl|].
  destruct (rd_ids r) as [|i ids] eqn:I; cbn.
  - destruct (check_clock _ _ _) as [[[ok cl] d] ev] eqn:K; cbn.
    destruct ok; cbn; [|now rewrite Z.eqb_refl].
    destruct (rd_cb r); cbn; apply negb_true_iff, Z.eqb_neq; lia.
  - destruct ((m_id m =? i)%Z || existsb (Z.eqb (m_id m)) ids); cbn; [|now rewrite Z.eqb_refl].
    destruct (check_clock _ _ _) as [[[ok cl] d] ev] eqn:K; cbn.
    destruct ok; cbn; [|now rewrite Z.eqb_refl].
    destruct (rd_cb r); cbn; apply negb_true_iff, Z.eqb_neq; lia.
Qed.

(** Everything about the state after an arrival. *)
Lemma apply_fields c r m : let r' := fst (rd_apply c m r) in
  rd_created r' = rd_created r /\ rd_ids r' = rd_ids r /\ rd_cb r' = rd_cb r /\ rd_dropcb r' = rd_dropcb r /\
  rd_hashes r' = (if fresh c r m then hash_push (m_hash m) (rd_hashes r) else rd_hashes r) /\
  rd_clocks r' = (if fresh c r m && idok r m then
                    match snd (fst (fst (ckres c r m))) with Some x => aset (m_tid m) x (rd_clocks r) | None => rd_clocks r end
                  else rd_clocks r) /\
  rd_drops r' = (if fresh c r m && idok r m then rd_drops r + snd (fst (ckres c r m)) else rd_drops r)%Z /\
  (takes c r m = false -> rd_count r' = rd_count r /\ rd_size r' = rd_size r) /\
  (takes c r m = true -> rd_count r' = (rd_count r + 1)%Z /\ rd_size r' = length (m_payload m)) /\
  (takes c r m = true -> rd_cb r = None -> rd_buf r' = m_payload m /\ rd_time r' = m_time m /\ rd_received r' = true) /\
  (takes c r m = false \/ rd_cb r <> None -> rd_buf r' = rd_buf r /\ rd_time r' = rd_time r /\ rd_received r' = rd_received r).
Proof.
  rewrite takes_eq. unfold rd_apply, fresh, reaches, idok, ckok, ckres. cbn zeta.
  destruct (rd_created r) eqn:C; cbn -[Z.add]; [|rewrite ?C; repeat split; intros; auto; discriminate].
  destruct (layer_on c (m_layer m)); cbn -[Z.add]; [|rewrite ?C; repeat split; intros; auto; discriminate].
  destruct (existsb (Z.eqb (m_hash m)) (rd_hashes r)); cbn -[Z.add]; [rewrite ?C; repeat split; intros; auto; discriminate|].
  destruct (rd_ids r) as [|i ids] eqn:I; cbn -[Z.add].
  - destruct (check_clock _ _ _) as [[[ok cl] d] ev] eqn:K; cbn -[Z.add].
    destruct ok; cbn -[Z.add]; [|rewrite ?C, ?I; repeat split; intros; auto; discriminate].
    destruct (rd_cb r) eqn:CB; cbn -[Z.add]; rewrite ?C, ?I, ?CB; repeat split; intros; auto; try discriminate.
    all: destruct H; congruence.
  - destruct ((m_id m =? i)%Z || existsb (Z.eqb (m_id m)) ids); cbn -[Z.add]; [|rewrite ?C, ?I; repeat split; intros; auto; discriminate].
    destruct (check_clock _ _ _) as [[[ok cl] d] ev] eqn:K; cbn -[Z.add].
    destruct ok; cbn -[Z.add]; [|rewrite ?C, ?I; repeat split; intros; auto; discriminate].
    destruct (rd_cb r) eqn:CB; cbn -[Z.add]; rewrite ?C, ?I, ?CB; repeat split; intros; auto; try discriminate.
    all: destruct H; congruence.
Qed.

Lemma rd_run_app c a b r : rd_run c (a ++ b) r =
  (fst (rd_run c b (fst (rd_run c a r))), snd (rd_run c a r) ++ snd (rd_run c b (fst (rd_run c a r)))).
Proof.
  revert r. induction a as [|o a IH]; intros r; cbn.
  - now destruct (rd_run c b r).
  - destruct (rd_step c o r) as [r1 out]. rewrite IH. destruct (rd_run c a r1) as [r2 outs]. cbn. reflexivity.
Qed.
Lemma rd_after_snoc c os o : rd_after c (os ++ [o]) = fst (rd_step c o (rd_after c os)).
Proof. unfold rd_after. rewrite rd_run_app. cbn. destruct (rd_step c o _). reflexivity. Qed.
Lemma rd_after_app c a b : rd_after c (a ++ b) = fst (rd_run c b (rd_after c a)).
Proof. unfold rd_after. now rewrite rd_run_app. Qed.

Definition op_taken c r o := match o with RArrive m => if takes c r m then [m] else [] | _ => [] end.
Lemma taken_from_app c a b r : taken_from c (a ++ b) r = taken_from c a r ++ taken_from c b (fst (rd_run c a r)).
Proof.
  revert r. induction a as [|o a IH]; intros r; cbn; [reflexivity|].
  rewrite IH. destruct (rd_step c o r) as [r1 out]. cbn. destruct (rd_run c a r1). cbn. now rewrite app_assoc.
Qed.
Lemma taken_snoc c os o : taken c (os ++ [o]) = taken c os ++ op_taken c (rd_after c os) o.
Proof. unfold taken. rewrite taken_from_app. cbn. now rewrite app_nil_r. Qed.

(** The other operations. *)
Lemma step_other c o r : (forall m, o <> RArrive m) ->
  let r' := fst (rd_step c o r) in
  rd_hashes r' = rd_hashes r /\ rd_clocks r' = rd_clocks r /\ rd_drops r' = rd_drops r /\ rd_count r' = rd_count r.
Proof.
  intros H. destruct o; cbn; try now destruct (rd_created r).
  - now destruct (H m).
  - unfold rd_read. destruct (rd_created r); cbn; [|auto]. destruct (rd_received r); cbn; auto.
Qed.

(** *** The stored clock is the highest delivered one. *)
Lemma highest_snoc t past m : highest t (past ++ [m]) =
  if eqb (m_tid m) t then Some (match highest t past with Some h => Z.max h (m_clock m) | None => m_clock m end) else highest t past.
Proof. unfold highest. now rewrite fold_left_snoc. Qed.

Lemma check_clock_cases drop last c : 
  match last with
  | None => check_clock drop last c = (true, Some c, 0%Z, false)
  | Some l =>
     (c = l + 1 /\ check_clock drop last c = (true, Some c, 0, false))%Z \/
     (c = l /\ check_clock drop last c = (false, Some l, 0, false))%Z \/
     (c > l + 1 /\ check_clock drop last c = (true, Some c, c - l, true))%Z \/
     (c < l /\ check_clock drop last c = (negb drop, Some l, 0, false))%Z
  end.
Proof.
  destruct last as [l|]; [|reflexivity]. unfold check_clock.
  destruct (Z.eqb_spec (c - l) 1); [left; split; [lia|reflexivity]|].
  destruct (Z.eqb_spec (c - l) 0); [right; left; split; [lia|reflexivity]|].
  destruct (Z.ltb_spec 1 (c - l)); [right; right; left; split; [lia|reflexivity]|].
  right; right; right. split; [lia|]. destruct drop; reflexivity.
Qed.

Lemma clocks_inv c os t : aget t (rd_clocks (rd_after c os)) = highest t (taken c os).
Proof.
  induction os as [|o os IH] using rev_ind; [reflexivity|].
  rewrite rd_after_snoc, taken_snoc.
  destruct o as [m| | | | | | |]; try (rewrite app_nil_r; rewrite <- IH; f_equal; apply step_other; discriminate).
  cbn [rd_step op_taken]. set (r := rd_after c os) in *.
  destruct (apply_fields c r m) as (_ & _ & _ & _ & _ & HC & _).
  rewrite HC, takes_eq. unfold ckok, ckres.
  destruct (fresh c r m); cbn [andb]; [|now rewrite app_nil_r].
  destruct (idok r m); cbn [andb]; [|now rewrite app_nil_r].
  pose proof (check_clock_cases (rc_drop_ooo c) (aget (m_tid m) (rd_clocks r)) (m_clock m)) as CK.
  destruct (aget (m_tid m) (rd_clocks r)) as [l|] eqn:G.
  - destruct CK as [[E ->]|[[E ->]|[[E ->]|[E ->]]]]; cbn [fst snd].
    + rewrite aget_aset, highest_snoc, eqb_sym. destruct (eqb (m_tid m) t) eqn:T; [|exact IH].
      apply eqb_true in T. subst t. rewrite <- IH, G. f_equal. lia.
    + rewrite app_nil_r, aget_aset. destruct (eqb t (m_tid m)) eqn:T; [|exact IH].
      apply eqb_true in T. subst t. now rewrite <- IH, G.
    + rewrite aget_aset, highest_snoc, eqb_sym. destruct (eqb (m_tid m) t) eqn:T; [|exact IH].
      apply eqb_true in T. subst t. rewrite <- IH, G. f_equal. lia.
    + destruct (negb (rc_drop_ooo c)).
      * rewrite aget_aset, highest_snoc, eqb_sym. destruct (eqb (m_tid m) t) eqn:T; [|exact IH].
        apply eqb_true in T. subst t. rewrite <- IH, G. f_equal. lia.
      * rewrite app_nil_r, aget_aset. destruct (eqb t (m_tid m)) eqn:T; [|exact IH].
        apply eqb_true in T. subst t. now rewrite <- IH, G.
  - rewrite CK. cbn [fst snd]. rewrite aget_aset, highest_snoc, eqb_sym.
    destruct (eqb (m_tid m) t) eqn:T; [|exact IH].
    apply eqb_true in T. subst t. now rewrite <- IH, G.
Qed.

(** *** C07, dropping enabled. *)
Lemma clocks_of_snoc t ms m : clocks_of t (ms ++ [m]) = clocks_of t ms ++ if eqb (m_tid m) t then [m_clock m] else [].
Proof. unfold clocks_of. rewrite filter_app, map_app. cbn. now destruct (eqb (m_tid m) t). Qed.

Lemma highest_bound t ms : forall x, In x (clocks_of t ms) -> exists h, highest t ms = Some h /\ (x <= h)%Z.
Proof.
  induction ms as [|m ms IH] using rev_ind; [now intros x []|].
  intros x. rewrite clocks_of_snoc, highest_snoc. destruct (eqb (m_tid m) t) eqn:T.
  - rewrite in_app_iff. intros [H|[<-|[]]].
    + destruct (IH x H) as (h & -> & L). eexists; split; [reflexivity|]. lia.
    + eexists; split; [reflexivity|]. destruct (highest t ms); lia.
  - rewrite app_nil_r. apply IH.
Qed.

Lemma increasing_snoc l x : increasing l -> (forall y, In y l -> (y < x)%Z) -> increasing (l ++ [x]).
Proof.
  intros I B a u b v d E.
  destruct d as [|w d'] using rev_ind.
  - assert (E' : l ++ [x] = (a ++ u :: b) ++ [v]) by (rewrite E, <- app_assoc; reflexivity).
    apply app_inj_tail in E'. destruct E' as [-> ->]. apply B. rewrite in_app_iff. cbn. auto.
  - clear IHd'. assert (E' : l ++ [x] = (a ++ u :: b ++ v :: d') ++ [w]).
    { rewrite E. repeat (rewrite <- app_assoc; cbn). reflexivity. }
    apply app_inj_tail in E'. destruct E' as [-> ->]. exact (I a u b v d' eq_refl).
Qed.
Lemma increasing_nil : increasing [].
Proof. intros a x b y d E. now destruct a. Qed.

Lemma increasing_lemma c os t : rc_drop_ooo c = true -> increasing (clocks_of t (taken c os)).
Proof.
  intros D. induction os as [|o os IH] using rev_ind; [apply increasing_nil|].
  rewrite taken_snoc. destruct o as [m| | | | | | |]; cbn [op_taken]; try (rewrite app_nil_r; exact IH).
  destruct (takes c (rd_after c os) m) eqn:T; [|rewrite app_nil_r; exact IH].
  rewrite clocks_of_snoc. destruct (eqb (m_tid m) t) eqn:E; [|rewrite app_nil_r; exact IH].
  apply eqb_true in E. subst t. apply increasing_snoc; [exact IH|].
  intros y Hy. apply highest_bound in Hy. destruct Hy as (h & Hh & L).
  rewrite takes_eq in T. apply andb_true_iff in T. destruct T as [_ T]. unfold ckok, ckres in T.
  rewrite clocks_inv, Hh, D in T.
  pose proof (check_clock_cases true (Some h) (m_clock m)) as CK. cbn iota in CK.
  destruct CK as [[E1 R]|[[E1 R]|[[E1 R]|[E1 R]]]]; rewrite R in T; cbn in T; try discriminate; lia.
Qed.

(** *** C07, the window of hashes. *)
Lemma trim_small fuel q : length q <= 64 -> trim fuel q = q.
Proof. intros H. destruct fuel; [reflexivity|]. cbn. destruct (Nat.ltb_spec hash_queue_size (length q)); [unfold hash_queue_size in *; lia|reflexivity]. Qed.
Lemma hash_push_eq h q : length q <= 64 -> hash_push h q = if Nat.ltb (length q) 64 then q ++ [h] else tl (q ++ [h]).
Proof.
  intros L. unfold hash_push. destruct (Nat.ltb_spec (length q) 64).
  - apply trim_small. rewrite app_length. cbn. lia.
  - cbn [trim]. rewrite app_length. cbn [length].
    destruct (Nat.ltb_spec hash_queue_size (length q + 1)); [|unfold hash_queue_size in *; lia].
    apply trim_small. destruct q; [cbn in *; lia|]. cbn in *. rewrite app_length. cbn. lia.
Qed.
Lemma hash_push_length h q : length q <= 64 -> length (hash_push h q) <= 64.
Proof.
  intros L. rewrite hash_push_eq by assumption. destruct (Nat.ltb_spec (length q) 64).
  - rewrite app_length. cbn. lia.
  - destruct q; cbn in *; [lia|]. rewrite app_length. cbn. lia.
Qed.
Lemma hash_push_last h q : length q <= 64 -> exists q', hash_push h q = q' ++ [h].
Proof.
  intros L. rewrite hash_push_eq by assumption. destruct (Nat.ltb_spec (length q) 64); [eauto|].
  destruct q; cbn in *; [lia|eauto].
Qed.

Lemma step_hashes c o r : rd_hashes (fst (rd_step c o r)) =
  match o with RArrive m => if fresh c r m then hash_push (m_hash m) (rd_hashes r) else rd_hashes r | _ => rd_hashes r end.
Proof. destruct o; [apply apply_fields| | | | | | |]; apply step_other; discriminate. Qed.

Lemma hashes_len c os : length (rd_hashes (rd_after c os)) <= 64.
Proof.
  induction os as [|o os IH] using rev_ind; [cbn; lia|].
  rewrite rd_after_snoc, step_hashes. destruct o; auto. destruct (fresh _ _ _); auto using hash_push_length.
Qed.

Lemma arrivals_snoc os o : arrivals (os ++ [o]) = arrivals os ++ match o with RArrive m => [m] | _ => [] end.
Proof. unfold arrivals. rewrite flat_map_app. cbn. now rewrite app_nil_r. Qed.

Lemma distinct_hashes_incl (l : list Z) os : NoDup l -> incl l (map m_hash (arrivals os)) -> length l <= distinct_hashes os.
Proof. intros N I. unfold distinct_hashes. apply NoDup_incl_length; [exact N|]. intros x Hx. apply nodup_In, I, Hx. Qed.

Lemma distinct_hashes_mono os o : distinct_hashes os <= distinct_hashes (os ++ [o]).
Proof.
  unfold distinct_hashes at 1. apply distinct_hashes_incl; [apply NoDup_nodup|].
  intros x Hx. apply nodup_In in Hx. rewrite arrivals_snoc, map_app, in_app_iff. auto.
Qed.

Lemma window_inv c pre m mid : fresh c (rd_after c pre) m = true -> distinct_hashes mid <= 63 ->
  exists q1 q2, rd_hashes (rd_after c (pre ++ RArrive m :: mid)) = q1 ++ m_hash m :: q2 /\
    NoDup q2 /\ incl q2 (map m_hash (arrivals mid)).
Proof.
  intros F. induction mid as [|o mid IH] using rev_ind; intros D.
  - rewrite rd_after_snoc, step_hashes, F. destruct (hash_push_last (m_hash m) (rd_hashes (rd_after c pre)) (hashes_len _ _)) as [q' ->].
    exists q', []. repeat split; [constructor|easy].
  - replace (pre ++ RArrive m :: mid ++ [o]) with ((pre ++ RArrive m :: mid) ++ [o]) by (rewrite <- app_assoc; reflexivity).
    destruct IH as (q1 & q2 & E & N & I); [pose proof (distinct_hashes_mono mid o); lia|].
    rewrite rd_after_snoc, step_hashes.
    assert (I' : incl q2 (map m_hash (arrivals (mid ++ [o])))).
    { intros x Hx. rewrite arrivals_snoc, map_app, in_app_iff. left. apply I, Hx. }
    destruct o as [m'| | | | | | |]; try (exists q1, q2; split; [exact E|split; [exact N|exact I']]).
    destruct (fresh c (rd_after c (pre ++ RArrive m :: mid)) m') eqn:F'; [|exists q1, q2; split; [exact E|split; [exact N|exact I']]].
    unfold fresh in F'. apply andb_true_iff in F'. destruct F' as [_ F']. apply negb_true_iff in F'. rewrite E in F'.
    assert (NI : ~ In (m_hash m') q2).
    { intros Hx. rewrite existsb_app in F'. cbn in F'. apply orb_false_iff in F'. destruct F' as [_ F'].
      apply orb_false_iff in F'. destruct F' as [_ F'].
      assert (existsb (Z.eqb (m_hash m')) q2 = true) by (apply existsb_exists; eexists; split; [exact Hx|apply Z.eqb_refl]). congruence. }
    assert (N2 : NoDup (q2 ++ [m_hash m'])).
    { apply nodup_snoc; auto. }
    assert (I2 : incl (q2 ++ [m_hash m']) (map m_hash (arrivals (mid ++ [RArrive m'])))).
    { intros x Hx. apply in_app_iff in Hx. destruct Hx as [Hx|[<-|[]]]; [apply I', Hx|].
      rewrite arrivals_snoc, map_app, in_app_iff. right. cbn. auto. }
    pose proof (distinct_hashes_incl _ _ N2 I2) as LB. rewrite app_length in LB. cbn in LB.
    rewrite hash_push_eq by apply hashes_len. rewrite E.
    destruct (Nat.ltb_spec (length (q1 ++ m_hash m :: q2)) 64).
    + exists q1, (q2 ++ [m_hash m']). split; [rewrite <- app_assoc; reflexivity|auto].
    + destruct q1 as [|x q1]; [cbn in *; lia|].
      exists q1, (q2 ++ [m_hash m']). split; [cbn; rewrite <- app_assoc; reflexivity|auto].
Qed.

Lemma window_lemma c pre m mid m' : takes c (rd_after c pre) m = true -> m_hash m' = m_hash m ->
  distinct_hashes mid <= 63 -> takes c (rd_after c (pre ++ RArrive m :: mid)) m' = false.
Proof.
  intros T E D. rewrite takes_eq in T. apply andb_true_iff in T. destruct T as [T _]. apply andb_true_iff in T. destruct T as [T _].
  destruct (window_inv c pre m mid T D) as (q1 & q2 & Q & _).
  rewrite takes_eq. unfold fresh. rewrite Q, E, existsb_app. cbn. rewrite Z.eqb_refl. cbn. rewrite orb_true_r. cbn. now rewrite andb_false_r.
Qed.

(** *** C08. *)
Definition jump1 past m := match highest (m_tid m) past with
  | Some h => if Z.ltb (h + 1) (m_clock m) then [(m_clock m - h)%Z] else [] | None => [] end.
Lemma jumps_snoc ms : forall past m, jumps past (ms ++ [m]) = jumps past ms ++ jump1 (past ++ ms) m.
Proof.
  induction ms as [|x ms IH]; intros past m; cbn.
  - rewrite !app_nil_r. reflexivity.
  - rewrite IH, <- !app_assoc. reflexivity.
Qed.
Lemma sum_app a b : sum (a ++ b) = (sum a + sum b)%Z.
Proof. unfold sum. induction a as [|x a IH]; cbn [app fold_right]; lia. Qed.

Lemma drops_inv c os : rd_drops (rd_after c os) = sum (jumps [] (taken c os)).
Proof.
  induction os as [|o os IH] using rev_ind; [reflexivity|].
  rewrite rd_after_snoc, taken_snoc.
  destruct o as [m| | | | | | |]; try (rewrite app_nil_r; rewrite <- IH; apply step_other; discriminate).
  cbn [rd_step op_taken].
  destruct (apply_fields c (rd_after c os) m) as (_ & _ & _ & _ & _ & _ & HD & _).
  rewrite HD, takes_eq. unfold ckok, ckres. rewrite clocks_inv.
  destruct (fresh c _ m); cbn [andb]; [|now rewrite app_nil_r].
  destruct (idok _ m); cbn [andb]; [|now rewrite app_nil_r].
  pose proof (check_clock_cases (rc_drop_ooo c) (highest (m_tid m) (taken c os)) (m_clock m)) as CK.
  rewrite IH.
  destruct (highest (m_tid m) (taken c os)) as [l|] eqn:G.
  - destruct CK as [[E ->]|[[E ->]|[[E ->]|[E ->]]]]; cbn [fst snd].
    + rewrite jumps_snoc, sum_app. cbn [app]. unfold jump1. rewrite G. destruct (Z.ltb_spec (l + 1) (m_clock m)); [lia|]. reflexivity.
    + rewrite app_nil_r. lia.
    + rewrite jumps_snoc, sum_app. cbn [app]. unfold jump1. rewrite G. destruct (Z.ltb_spec (l + 1) (m_clock m)); [|lia]. cbn. lia.
    + destruct (negb (rc_drop_ooo c)); [|rewrite app_nil_r; lia].
      rewrite jumps_snoc, sum_app. cbn [app]. unfold jump1. rewrite G. destruct (Z.ltb_spec (l + 1) (m_clock m)); [lia|]. reflexivity.
  - rewrite CK. cbn [fst snd]. rewrite jumps_snoc, sum_app. cbn [app]. unfold jump1. rewrite G. reflexivity.
Qed.

Lemma sum_minus l : sum (map (fun j => j - 1)%Z l) = (sum l - Z.of_nat (length l))%Z.
Proof. unfold sum. induction l as [|x l IH]; cbn [map fold_right length]; lia. Qed.

Lemma drops_lemma c os : rd_drops (rd_after c os) = (missed (taken c os) + Z.of_nat (length (jumps [] (taken c os))))%Z.
Proof. unfold missed. rewrite drops_inv, sum_minus. lia. Qed.

Lemma jumps_pos ms : forall past j, In j (jumps past ms) -> (1 < j)%Z.
Proof.
  induction ms as [|m ms IH]; intros past j; cbn; [easy|].
  rewrite in_app_iff. intros [H|H]; [|eapply IH, H].
  destruct (highest (m_tid m) past) as [h|]; [|easy].
  destruct (Z.ltb_spec (h + 1) (m_clock m)); [|easy]. destruct H as [<-|[]]. lia.
Qed.
Lemma sum_pos l : (forall j, In j l -> 1 < j)%Z -> (l = [] \/ 0 < sum (map (fun j => j - 1) l))%Z.
Proof.
  induction l as [|x l IH]; intros H; [now left|]. right. cbn.
  pose proof (H x (or_introl eq_refl)).
  destruct IH as [->|IH]; [intros j Hj; apply H; now right|cbn; lia|unfold sum in *; lia].
Qed.
Lemma drops_zero_lemma c os : rd_drops (rd_after c os) = 0%Z <-> missed (taken c os) = 0%Z.
Proof.
  rewrite drops_lemma. pose proof (sum_pos (jumps [] (taken c os)) (jumps_pos _ _)) as [E|P].
  - unfold missed. rewrite E. cbn. lia.
  - unfold missed. lia.
Qed.

Lemma step_misc c o r : let r' := fst (rd_step c o r) in
  rd_created r' = (match o with RStop => false | _ => rd_created r end) /\
  rd_ids r' = (match o with RSetID i => i | _ => rd_ids r end) /\
  rd_cb r' = (match o with RStop => if rd_created r then None else rd_cb r
              | RSetCallback k => if rd_created r then Some k else rd_cb r
              | RRemCallback => if rd_created r then None else rd_cb r | _ => rd_cb r end) /\
  rd_dropcb r' = (match o with RStop => if rd_created r then None else rd_dropcb r
              | RSetDropEvent k => if rd_created r then Some k else rd_dropcb r
              | RRemDropEvent => if rd_created r then None else rd_dropcb r | _ => rd_dropcb r end).
Proof.
  destruct o; try (cbn; destruct (rd_created r) eqn:C; cbn; rewrite ?C; auto; fail).
  - destruct (apply_fields c r m) as (A & B & D & E & _). cbn [rd_step]. auto.
  - cbn. unfold rd_read. destruct (rd_created r) eqn:C; cbn; [|rewrite ?C; auto]. destruct (rd_received r); cbn; rewrite ?C; auto.
Qed.
Lemma created_inv c os : rd_created (rd_after c os) = true <-> ~ In RStop os.
Proof.
  induction os as [|o os IH] using rev_ind; [cbn; tauto|].
  rewrite rd_after_snoc. destruct (step_misc c o (rd_after c os)) as [-> _].
  rewrite in_app_iff. cbn [In].
  destruct o; try (rewrite IH; split; [intros A [B|[B|[]]]; [tauto|discriminate]|tauto]).
  split; [discriminate|]. intros H. exfalso. tauto.
Qed.
Lemma cb_inv c os : ~ In RStop os -> rd_cb (rd_after c os) = callback_after os /\ rd_dropcb (rd_after c os) = drop_callback_after os.
Proof.
  induction os as [|o os IH] using rev_ind; [auto|].
  intros H. assert (H' : ~ In RStop os) by (rewrite in_app_iff in H; tauto).
  destruct (IH H') as [I1 I2]. apply (created_inv c) in H'.
  rewrite rd_after_snoc. destruct (step_misc c o (rd_after c os)) as (_ & _ & -> & ->).
  unfold callback_after, drop_callback_after in *. rewrite !fold_left_snoc.
  destruct o; rewrite ?H'; auto.
Qed.
Lemma ids_inv c os : rd_ids (rd_after c os) = filter_after os.
Proof.
  induction os as [|o os IH] using rev_ind; [auto|].
  rewrite rd_after_snoc. destruct (step_misc c o (rd_after c os)) as (_ & -> & _).
  unfold filter_after in *. rewrite fold_left_snoc. destruct o; auto.
Qed.

Lemma takes_created c os m : takes c (rd_after c os) m = true -> ~ In RStop os.
Proof.
  intros T. apply (created_inv c). rewrite takes_eq in T. unfold fresh, reaches in T.
  destruct (rd_created _); [reflexivity|discriminate].
Qed.

(** What an arrival shows to the outside. *)
Lemma apply_outs c r m : snd (rd_apply c m r) =
  (if fresh c r m && idok r m && snd (ckres c r m) then match rd_dropcb r with Some k => [RODropEvent k (m_clock m)] | None => [] end else []) ++
  (if takes c r m then match rd_cb r with Some k => [ROCallback k m] | None => [] end else []) ++
  [ROReturn (if takes c r m || (reaches c r m && negb (fresh c r m)) then length (m_payload m) else 0)].
Proof.
  rewrite takes_eq. unfold rd_apply, fresh, reaches, idok, ckok, ckres. cbn zeta.
  destruct (rd_created r) eqn:C; cbn; [|reflexivity].
  destruct (layer_on c (m_layer m)); cbn; [|reflexivity].
  destruct (existsb (Z.eqb (m_hash m)) (rd_hashes r)); cbn; [reflexivity|].
  destruct (rd_ids r) as [|i ids] eqn:I; cbn.
  - destruct (check_clock _ _ _) as [[[ok cl] d] ev] eqn:K; cbn.
    destruct ok; cbn; [|destruct ev; cbn; [destruct (rd_dropcb r)|]; reflexivity].
    destruct (rd_cb r) eqn:CB; cbn; destruct ev; cbn; [destruct (rd_dropcb r)| |destruct (rd_dropcb r)|]; reflexivity.
  - destruct ((m_id m =? i)%Z || existsb (Z.eqb (m_id m)) ids); cbn; [|reflexivity].
    destruct (check_clock _ _ _) as [[[ok cl] d] ev] eqn:K; cbn.
    destruct ok; cbn; [|destruct ev; cbn; [destruct (rd_dropcb r)|]; reflexivity].
    destruct (rd_cb r) eqn:CB; cbn; destruct ev; cbn; [destruct (rd_dropcb r)| |destruct (rd_dropcb r)|]; reflexivity.
Qed.

Lemma drop_event_lemma c os m k x : takes c (rd_after c os) m = true ->
  (In (RODropEvent k x) (snd (rd_apply c m (rd_after c os))) <->
   drop_callback_after os = Some k /\ x = m_clock m /\ jumps_over (taken c os) m).
Proof.
  intros T. pose proof (takes_created _ _ _ T) as NS. destruct (cb_inv c os NS) as [_ DC].
  rewrite apply_outs, T, DC. pose proof T as T0. rewrite takes_eq in T0.
  apply andb_true_iff in T0. destruct T0 as [T1 T2]. rewrite T1. cbn [andb].
  unfold ckok, ckres in *. rewrite clocks_inv in *. unfold jumps_over.
  pose proof (check_clock_cases (rc_drop_ooo c) (highest (m_tid m) (taken c os)) (m_clock m)) as CK.
  rewrite !in_app_iff.
  assert (R : ~ (In (RODropEvent k x) match rd_cb (rd_after c os) with Some k0 => [ROCallback k0 m] | None => [] end \/
             In (RODropEvent k x) [ROReturn (if true || (reaches c (rd_after c os) m && negb (fresh c (rd_after c os) m)) then length (m_payload m) else 0)])).
  { intros [H|[H|[]]]; [destruct (rd_cb _); [destruct H as [H|[]]; discriminate|destruct H]|discriminate]. }
  destruct (highest (m_tid m) (taken c os)) as [l|] eqn:G.
  - destruct CK as [[E CK]|[[E CK]|[[E CK]|[E CK]]]]; rewrite CK in *; cbn [fst snd] in *.
    + split; [intros [[]|H]; tauto|]. intros (_ & _ & h & [= <-] & L). lia.
    + discriminate.
    + split.
      * intros [H|H]; [|tauto]. destruct (drop_callback_after os) as [k'|]; [|destruct H].
        destruct H as [H|[]]. injection H as <- <-. split; [reflexivity|]. split; [reflexivity|]. exists l. split; [reflexivity|lia].
      * intros (-> & -> & _). left. now left.
    + split; [intros [[]|H]; tauto|]. intros (_ & _ & h & [= <-] & L). lia.
  - rewrite CK in *. cbn [fst snd] in *. split; [intros [[]|H]; tauto|]. intros (_ & _ & h & H & _). discriminate.
Qed.

(** *** C09. *)
Lemma newest_snoc_inv c os o p t : newest c (os ++ [o]) p t ->
  (exists m, o = RArrive m /\ buffered c os m /\ p = m_payload m /\ t = m_time m) \/
  (newest c os p t /\ o <> RRead /\ forall m, o = RArrive m -> ~ buffered c os m).
Proof.
  intros (os1 & m & os2 & E & B & P & T & NR & NB).
  destruct os2 as [|x os2 _] using rev_ind.
  - apply app_inj_tail in E. destruct E as [-> ->]. left. eauto.
  - assert (E' : os ++ [o] = (os1 ++ RArrive m :: os2) ++ [x]) by (rewrite E, <- app_assoc; reflexivity).
    apply app_inj_tail in E'. destruct E' as [-> ->]. right. split; [|split].
    + exists os1, m, os2. repeat (split; [tauto || auto|]).
      * intros H; apply NR. rewrite in_app_iff. auto.
      * intros a m' b E2. apply (NB a m' (b ++ [x])). rewrite E2, <- app_assoc. reflexivity.
    + intros ->. apply NR. rewrite in_app_iff. cbn. auto.
    + intros m' ->. exact (NB os2 m' [] eq_refl).
Qed.
Lemma newest_snoc c os o p t : newest c os p t -> o <> RRead -> (forall m, o = RArrive m -> ~ buffered c os m) -> newest c (os ++ [o]) p t.
Proof.
  intros (os1 & m & os2 & -> & B & P & T & NR & NB) N1 N2.
  exists os1, m, (os2 ++ [o]). split; [rewrite <- app_assoc; reflexivity|]. repeat (split; [auto|]).
  - rewrite in_app_iff. intros [H|[H|[]]]; auto.
  - intros a m' b E. destruct b as [|y b _] using rev_ind.
    + apply app_inj_tail in E. destruct E as [<- E]. exact (N2 m' E).
    + assert (E' : os2 ++ [o] = (a ++ RArrive m' :: b) ++ [y]) by (rewrite E, <- app_assoc; reflexivity).
      apply app_inj_tail in E'. destruct E' as [E' _]. exact (NB a m' b E').
Qed.

Lemma step_buf c o r : (forall m, o <> RArrive m) -> o <> RRead ->
  let r' := fst (rd_step c o r) in rd_buf r' = rd_buf r /\ rd_time r' = rd_time r /\ rd_received r' = rd_received r.
Proof. intros H1 H2. destruct o; cbn; try (now destruct (H1 m)); try easy; destruct (rd_created r); auto. Qed.

Lemma buf_inv c os p t : ~ In RStop os ->
  (rd_received (rd_after c os) = true /\ rd_buf (rd_after c os) = p /\ rd_time (rd_after c os) = t <-> newest c os p t).
Proof.
  revert p t. induction os as [|o os IH] using rev_ind; intros p t NS.
  - split; [intros [H _]; discriminate|]. intros (os1 & m & os2 & E & _). now destruct os1.
  - assert (NS' : ~ In RStop os) by (rewrite in_app_iff in NS; tauto).
    assert (NS2 : o <> RStop) by (intros ->; apply NS; rewrite in_app_iff; cbn; auto).
    specialize (IH p t NS'). destruct (cb_inv c os NS') as [CB _]. pose proof (proj2 (created_inv c os) NS') as CR.
    rewrite rd_after_snoc.
    assert (GEN : (forall m, o <> RArrive m) -> o <> RRead ->
       (rd_received (fst (rd_step c o (rd_after c os))) = true /\ rd_buf (fst (rd_step c o (rd_after c os))) = p /\
        rd_time (fst (rd_step c o (rd_after c os))) = t <-> newest c (os ++ [o]) p t)).
    { intros N1 N2. destruct (step_buf c o (rd_after c os) N1 N2) as (-> & -> & ->). rewrite IH. split.
      - intros H. apply newest_snoc; auto. intros m ->. now destruct (N1 m).
      - intros H. apply newest_snoc_inv in H. destruct H as [(m & -> & _)|[H _]]; [now destruct (N1 m)|exact H]. }
    destruct o as [m| | | | | | |]; try (apply GEN; discriminate); [|].
    + cbn [rd_step]. destruct (apply_fields c (rd_after c os) m) as (_ & _ & _ & _ & _ & _ & _ & _ & _ & HB1 & HB2).
      destruct (takes c (rd_after c os) m) eqn:T; [destruct (callback_after os) eqn:K|].
      * destruct HB2 as (-> & -> & ->); [right; congruence|]. rewrite IH.
        assert (NB : ~ buffered c os m) by (intros [_ H]; congruence).
        split; intros H; [apply newest_snoc; auto; [discriminate|congruence]|].
        apply newest_snoc_inv in H. destruct H as [(m' & [= <-] & B & _)|[H _]]; [tauto|exact H].
      * destruct HB1 as (-> & -> & ->); [reflexivity|congruence|]. split.
        -- intros (_ & <- & <-). exists os, m, []. split; [reflexivity|]. repeat split; auto. intros a m' b E. now destruct a.
        -- intros H. apply newest_snoc_inv in H. destruct H as [(m' & [= <-] & B & -> & ->)|(_ & _ & H)]; [auto|].
           destruct (H m eq_refl). split; auto.
      * destruct HB2 as (-> & -> & ->); [now left|]. rewrite IH.
        assert (NB : ~ buffered c os m) by (intros [H _]; congruence).
        split; intros H; [apply newest_snoc; auto; [discriminate|congruence]|].
        apply newest_snoc_inv in H. destruct H as [(m' & [= <-] & B & _)|[H _]]; [tauto|exact H].
    + cbn [rd_step]. unfold rd_read. rewrite CR. cbn [negb].
      assert (NN : ~ newest c (os ++ [RRead]) p t).
      { intros H. apply newest_snoc_inv in H. destruct H as [(m & [=] & _)|(_ & H & _)]. now apply H. }
      destruct (rd_received (rd_after c os)) eqn:R; cbn; [|rewrite R]; split; try tauto; intros [H _]; discriminate.
Qed.

Lemma read_lemma c os p t : snd (rd_read (rd_after c os)) = Some (p, t) <-> ~ In RStop os /\ newest c os p t.
Proof.
  unfold rd_read. destruct (rd_created (rd_after c os)) eqn:C; cbn.
  - apply created_inv in C. rewrite <- (buf_inv c os p t C).
    destruct (rd_received (rd_after c os)); cbn.
    + split; [intros [= <- <-]; auto|]. intros (_ & _ & <- & <-). reflexivity.
    + split; [discriminate|]. intros (_ & H & _). discriminate.
  - split; [discriminate|]. intros [H _]. apply (created_inv c) in H. congruence.
Qed.

Lemma callback_lemma c os m k : callback_after os = Some k ->
  (In (ROCallback k m) (snd (rd_apply c m (rd_after c os))) <-> takes c (rd_after c os) m = true) /\
  (takes c (rd_after c os) m = true -> forall p t, newest c (os ++ [RArrive m]) p t <-> newest c os p t).
Proof.
  intros CB. split.
  - rewrite apply_outs, !in_app_iff. split.
    + intros [H|[H|[H|[]]]]; [|destruct (takes _ _ _); [reflexivity|destruct H]|discriminate].
      destruct (_ && _ && _); [|destruct H]. destruct (rd_dropcb _); [destruct H as [H|[]]; discriminate|destruct H].
    + intros T. right. left. rewrite T. pose proof (takes_created _ _ _ T) as NS. destruct (cb_inv c os NS) as [-> _]. rewrite CB. now left.
  - intros T p t. split; intros H.
    + apply newest_snoc_inv in H. destruct H as [(m' & [= <-] & [_ B] & _)|[H _]]; [congruence|exact H].
    + apply newest_snoc; auto; [discriminate|]. intros m' _ [_ B]. congruence.
Qed.

(** *** C10. *)
Lemma deliver_lemma c os m : takes c (rd_after c os) m = true ->
  ~ In RStop os /\ layer_on c (m_layer m) = true /\ (filter_after os = [] \/ In (m_id m) (filter_after os)).
Proof.
  intros T. split; [eapply takes_created, T|]. rewrite takes_eq in T.
  apply andb_true_iff in T. destruct T as [T _]. apply andb_true_iff in T. destruct T as [T1 T2].
  unfold fresh, reaches in T1. split; [destruct (layer_on _ _); [reflexivity|rewrite andb_false_r in T1; discriminate]|].
  unfold idok in T2. rewrite ids_inv in T2. destruct (filter_after os) as [|i l] eqn:F; [now left|right].
  apply existsb_exists in T2. destruct T2 as (x & Hx & E). apply Z.eqb_eq in E. now subst x.
Qed.
Lemma filtered_lemma c os m : layer_on c (m_layer m) = false \/ (filter_after os <> [] /\ ~ In (m_id m) (filter_after os)) ->
  let r := rd_after c os in let r' := fst (rd_apply c m r) in
  rd_count r' = rd_count r /\ rd_drops r' = rd_drops r /\ rd_size r' = rd_size r /\ rd_clocks r' = rd_clocks r /\
  rd_buf r' = rd_buf r /\ rd_time r' = rd_time r /\ rd_received r' = rd_received r /\
  exists n, snd (rd_apply c m r) = [ROReturn n].
Proof.
  intros H r r'.
  assert (F : fresh c r m && idok r m = false).
  { destruct H as [H|[H1 H2]].
    - unfold fresh, reaches. rewrite H, andb_false_r. reflexivity.
    - unfold idok. subst r. rewrite ids_inv. destruct (filter_after os) as [|i l]; [easy|].
      destruct (existsb (Z.eqb (m_id m)) (i :: l)) eqn:E; [|apply andb_false_r].
      apply existsb_exists in E. destruct E as (x & Hx & E). apply Z.eqb_eq in E. subst x. easy. }
  assert (T : takes c r m = false) by (rewrite takes_eq, F; reflexivity).
  destruct (apply_fields c r m) as (_ & _ & _ & _ & _ & HC & HD & HN & _ & _ & HB).
  fold r' in HC, HD, HN, HB. rewrite F in HC, HD. destruct (HN T) as [-> ->]. destruct HB as (-> & -> & ->); [now left|].
  repeat (split; [assumption || reflexivity|]). rewrite apply_outs, T, F. eexists. reflexivity.
Qed.

Lemma drop_count_refuted_lemma : ~ (forall c os, rd_drops (rd_after c os) = missed (taken c os)).
Proof.
  intros H. pose (mk := fun k => RArrive (Msg [1%Z] [] 0 k 0 k tl_shm)).
  specialize (H (RCfg true true true true) [mk 1%Z; mk 3%Z]). vm_compute in H. discriminate.
Qed.
Lemma filtered_dropped_refuted_lemma :
  ~ (forall (c : rcfg) (ids : list Z) (ms : list msg),
       map m_clock ms = map (fun i => Z.of_nat i) (seq 1 (length ms)) ->
       (forall m, In m ms -> m_tid m = [1%Z] /\ m_layer m = tl_shm) ->
       rd_drops (rd_after c (RSetID ids :: map RArrive ms)) = 0%Z).
Proof.
  intros H. pose (mk := fun k i => Msg [1%Z] [] i k 0 k tl_shm).
  specialize (H (RCfg true true true true) [7%Z] [mk 1 7; mk 2 8; mk 3 7]%Z eq_refl).
  assert (A : forall m, In m [mk 1 7; mk 2 8; mk 3 7]%Z -> m_tid m = [1%Z] /\ m_layer m = tl_shm).
  { intros m Hm. cbn in Hm. repeat (destruct Hm as [<-|Hm]; [split; reflexivity|]). destruct Hm. }
  specialize (H A). vm_compute in H. discriminate.
Qed.

Lemma layer_on_iff c m : layer_on c (m_layer m) = true <-> layer_enabled c m.
Proof.
  unfold layer_enabled. destruct (m_layer m); cbn; split; try tauto; try (intros H; repeat split; intros E; congruence || assumption).
  all: intros (A & B & D); auto.
Qed.
Lemma deliver_lemma' c os m : takes c (rd_after c os) m = true -> ~ In RStop os /\ layer_enabled c m /\ id_requested os m.
Proof. intros T. destruct (deliver_lemma c os m T) as (A & B & D). rewrite layer_on_iff in B. repeat split; auto; apply B. Qed.
Lemma filtered_lemma' c os m : ~ layer_enabled c m \/ ~ id_requested os m ->
  let r := rd_after c os in let r' := fst (rd_apply c m r) in
  rd_count r' = rd_count r /\ rd_drops r' = rd_drops r /\ rd_size r' = rd_size r /\ rd_clocks r' = rd_clocks r /\
  rd_buf r' = rd_buf r /\ rd_time r' = rd_time r /\ rd_received r' = rd_received r /\
  exists n, snd (rd_apply c m r) = [ROReturn n].
Proof.
  intros H. apply filtered_lemma. destruct H as [H|H].
  - left. rewrite <- layer_on_iff in H. destruct (layer_on _ _); congruence.
  - right. unfold id_requested in H. tauto.
Qed.

Lemma in_highest t ms h : highest t ms = Some h -> In h (clocks_of t ms).
Proof.
  revert h. induction ms as [|m ms IH] using rev_ind; [discriminate|]. intros h.
  rewrite highest_snoc, clocks_of_snoc, in_app_iff. destruct (eqb (m_tid m) t).
  - intros [= <-]. destruct (highest t ms) as [x|]; [|right; cbn; auto].
    destruct (Z.max_spec x (m_clock m)) as [[_ ->]|[_ ->]]; [right; cbn; auto|left; auto].
  - intros H. left. auto.
Qed.
Lemma hashes_arrived c os x : In x (rd_hashes (rd_after c os)) -> In x (map m_hash (arrivals os)).
Proof.
  induction os as [|o os IH] using rev_ind; [easy|].
  rewrite rd_after_snoc, step_hashes, arrivals_snoc, map_app, in_app_iff.
  destruct o as [m| | | | | | |]; try (intros H; left; auto; fail).
  destruct (fresh _ _ _); [|intros H; left; auto].
  rewrite hash_push_eq by apply hashes_len. intros H.
  assert (H' : In x (rd_hashes (rd_after c os) ++ [m_hash m])).
  { destruct (Nat.ltb _ _); [exact H|]. destruct (rd_hashes (rd_after c os)); cbn in *; auto. }
  apply in_app_iff in H'. destruct H' as [H'|[<-|[]]]; [left; auto|right; cbn; auto].
Qed.
Lemma accept_lemma c os m : ~ In RStop os -> layer_enabled c m -> id_requested os m ->
  ~ In (m_hash m) (map m_hash (arrivals os)) -> newer_clock (taken c os) m ->
  takes c (rd_after c os) m = true.
Proof.
  intros NS LE IR NH NC. rewrite takes_eq. unfold fresh, reaches.
  apply (created_inv c) in NS. rewrite NS. apply layer_on_iff in LE. rewrite LE. cbn [andb].
  destruct (existsb (Z.eqb (m_hash m)) (rd_hashes (rd_after c os))) eqn:E.
  { apply existsb_exists in E. destruct E as (x & Hx & E). apply Z.eqb_eq in E. subst x. apply hashes_arrived in Hx. tauto. }
  assert (I : idok (rd_after c os) m = true).
  { unfold idok. rewrite ids_inv. destruct (filter_after os) as [|i l] eqn:F; [reflexivity|].
    destruct IR as [IR|IR]; [congruence|]. rewrite F in IR. apply existsb_exists. exists (m_id m). split; [exact IR|apply Z.eqb_refl]. }
  rewrite I. unfold ckok, ckres. rewrite clocks_inv. cbn [negb andb].
  pose proof (check_clock_cases (rc_drop_ooo c) (highest (m_tid m) (taken c os)) (m_clock m)) as CK.
  destruct (highest (m_tid m) (taken c os)) as [h|] eqn:G; [|now rewrite CK].
  apply in_highest in G. specialize (NC h G).
  destruct CK as [[E1 ->]|[[E1 _]|[[E1 ->]|[E1 _]]]]; try reflexivity; lia.
Qed.
