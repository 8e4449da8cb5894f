(** Proofs about shared memory publishing. *)
From Verif Require Import Base ShmModel ShmSpec.

(** ** The steps that change something *)
Definition rec_state (s : shm) (nm : nat) (f : file) (size : Z) (ok : bool) : shm := fst (recreate s nm f size ok).
Definition rec_events (s : shm) (nm : nat) (f : file) (size : Z) (ok : bool) : list event := snd (recreate s nm f size ok).
Definition fresh_file (s : shm) (f : file) (size : Z) : file :=
  new_file (s_min s) size (map (fun c => (fst c, false)) (f_conn f)).

Inductive Step (s : shm) : shm -> list event -> Prop :=
| PrepKeep m : s_w s = WIdle ->
    (slot_name s = None \/ exists nm f, slot_name s = Some nm /\ get_file s nm = Some f /\ (hdr_bytes + m_len m <= f_cap f)%Z) ->
    Step s (upd_w s (WPrepared m)) []
| PrepRec m nm f size ok : s_w s = WIdle -> slot_name s = Some nm -> get_file s nm = Some f -> (m_len m <= size)%Z ->
    Step s (rec_state (upd_w s (WPrepared m)) nm f size ok) (rec_events (upd_w s (WPrepared m)) nm f size ok)
| LockNone m : s_w s = WPrepared m -> slot_name s = None -> Step s (upd_w s WFailed) []
| Lock m nm f : s_w s = WPrepared m -> slot_name s = Some nm -> get_file s nm = Some f -> f_lock f = None ->
    Step s (upd_w (upd_file s nm (set_lock (Some Pub) f)) (WLocked m)) [EvBegin nm]
| LockFail m nm f : s_w s = WPrepared m -> slot_name s = Some nm -> get_file s nm = Some f ->
    Step s (upd_w (rec_state s nm f (f_cap f) false) WFailed) []
| LockRec m nm f : s_w s = WPrepared m -> slot_name s = Some nm -> get_file s nm = Some f ->
    Step s (upd_w (upd_file (rec_state s nm f (f_cap f) true) (s_next s) (set_lock (Some Pub) (fresh_file s f (f_cap f)))) (WLocked m))
           (rec_events s nm f (f_cap f) true ++ [EvBegin (s_next s)])
| Header m nm f : s_w s = WLocked m -> slot_name s = Some nm -> get_file s nm = Some f ->
    Step s (upd_w (upd_file s nm (File (f_cap f) (f_lock f) (hdr_of m) hdr_bytes (f_pay f) (f_init f) (f_conn f))) (WHeaderDone m)) []
| PayEmpty m nm f : s_w s = WHeaderDone m -> slot_name s = Some nm -> get_file s nm = Some f -> m_pay m = [] ->
    Step s (upd_w s (WPayloadDone m true true true)) []
| PaySmall m nm f : s_w s = WHeaderDone m -> slot_name s = Some nm -> get_file s nm = Some f -> (f_cap f < hdr_bytes + m_len m)%Z ->
    Step s (upd_w s (WPayloadDone m true true false)) []
| Pay m nm f bs good : s_w s = WHeaderDone m -> slot_name s = Some nm -> get_file s nm = Some f ->
    Z.of_nat (length bs) = m_len m -> (good = true -> bs = m_pay m) ->
    Step s (upd_w (upd_file s nm (File (f_cap f) (f_lock f) (f_hdr f) (hdr_bytes + m_len m) (bs ++ skipn (length bs) (f_pay f))
                    (f_init f || good) (f_conn f)))
              (WPayloadDone m (negb (f_init f) || negb (Nat.eqb (length (s_ring s)) 1)) good true)) []
| Rel m nm f full good : s_w s = WPayloadDone m full good true -> slot_name s = Some nm -> get_file s nm = Some f -> (0 < m_ack m)%Z ->
    Step s (upd_w (upd_file s nm (set_lock None f)) (WSyncing m (map fst (f_conn f)) (map fst (f_conn f)) (map fst (f_conn f)) (s_now s)))
           [EvWritten nm (hdr_of m) (m_pay m) full good; EvSync nm (s_now s) (map fst (filter (fun c => negb (snd c)) (f_conn f)))]
| RelNoAck m nm f full good : s_w s = WPayloadDone m full good true -> slot_name s = Some nm -> get_file s nm = Some f -> (m_ack m <= 0)%Z ->
    Step s (upd_w (upd_file s nm (set_lock None f)) (WSyncing m [] (map fst (f_conn f)) [] (s_now s)))
           [EvWritten nm (hdr_of m) (m_pay m) full good]
| RelFail m nm f full good : s_w s = WPayloadDone m full good false -> slot_name s = Some nm -> get_file s nm = Some f ->
    Step s (upd_w (upd_file s nm (set_lock None f)) WFailed) []
| Eat m p eat set wait t nm : s_w s = WSyncing m (p :: eat) set wait t -> slot_name s = Some nm ->
    Step s (upd_w (upd_ack s p nm false) (WSyncing m eat set wait t)) [EvAte nm p]
| SetEv m p set wait t nm : s_w s = WSyncing m [] (p :: set) wait t -> slot_name s = Some nm ->
    Step s (upd_w (upd_snd s p nm true) (WSyncing m [] set wait (s_now s))) []
| AckGot m p wait t nm f : s_w s = WSyncing m [] [] (p :: wait) t -> slot_name s = Some nm -> get_file s nm = Some f ->
    existsb (fun c => Nat.eqb (fst c) p && snd c) (f_conn f) = false -> flag (s_ack s) p nm = true ->
    Step s (upd_w (upd_ack s p nm false) (WSyncing m [] [] wait t)) [EvAcked nm p]
| AckTO m p wait t nm f : s_w s = WSyncing m [] [] (p :: wait) t -> slot_name s = Some nm -> get_file s nm = Some f ->
    existsb (fun c => Nat.eqb (fst c) p && snd c) (f_conn f) = false -> (t + m_ack m <= s_now s)%Z ->
    Step s (upd_w (upd_file s nm (set_conn (map (fun c => if Nat.eqb (fst c) p then (fst c, true) else c) (f_conn f)) f)) (WSyncing m [] [] wait t))
           [EvTimedOut nm p (s_now s)]
| AckSkip m p wait t nm f : s_w s = WSyncing m [] [] (p :: wait) t -> slot_name s = Some nm -> get_file s nm = Some f ->
    existsb (fun c => Nat.eqb (fst c) p && snd c) (f_conn f) = true ->
    Step s (upd_w s (WSyncing m [] [] wait t)) []
| Ret (b : bool) : (exists m t, s_w s = WSyncing m [] [] [] t /\ b = true) \/ (s_w s = WFailed /\ b = false) ->
    Step s (fst (finish s b)) [EvReturn b]
| Conn slot nm f p : nth_error (s_ring s) slot = Some (Some nm) -> get_file s nm = Some f ->
    (forall m e st w t, s_w s = WSyncing m e st w t -> slot <> s_idx s) ->
    Step s (upd_file s nm (set_conn (aset p false (f_conn f)) f)) [EvConnect nm p]
| OStart p nm f : get_file s nm = Some f -> get_obs s p nm = None -> Step s (upd_obs s p nm obs0) [EvStart p nm]
| OWait p nm last buf : get_obs s p nm = Some (Obs last false OIdle buf) -> flag (s_snd s) p nm = true ->
    Step s (upd_obs (upd_snd s p nm false) p nm (Obs last true OIdle buf)) []
| OAccess p nm last buf f : get_obs s p nm = Some (Obs last true OIdle buf) -> get_file s nm = Some f -> f_lock f = None ->
    Step s (upd_obs (upd_file s nm (set_lock (Some (Sub p)) f)) p nm (Obs last false OLocked buf)) []
| OHdrOld p nm last u buf f : get_obs s p nm = Some (Obs last u OLocked buf) -> get_file s nm = Some f -> (h_clock (f_hdr f) <= last)%Z ->
    Step s (upd_obs (upd_file s nm (set_lock None f)) p nm (Obs last u OIdle buf)) []
| OHdrNew p nm last u buf f : get_obs s p nm = Some (Obs last u OLocked buf) -> get_file s nm = Some f -> (last < h_clock (f_hdr f))%Z ->
    Step s (upd_obs s p nm (Obs last u (OHeader (f_hdr f)) buf)) [EvRead p nm (f_hdr f)]
| OZero p nm last u buf f h : get_obs s p nm = Some (Obs last u (OHeader h) buf) -> get_file s nm = Some f ->
    h_zero h = true -> (h_size h = 0 \/ h_size h <= f_cur f)%Z ->
    Step s (upd_obs s p nm (Obs last u (OInside h (prefix (h_size h) (f_pay f))) buf)) [EvDeliver p nm h (prefix (h_size h) (f_pay f))]
| OZeroBad p nm last u buf f h : get_obs s p nm = Some (Obs last u (OHeader h) buf) -> get_file s nm = Some f ->
    h_zero h = true -> (h_size h <> 0 /\ f_cur f < h_size h)%Z ->
    Step s (upd_obs s p nm (Obs last u (OSkipped h) buf)) []
| OBuf p nm last u buf f h bs : get_obs s p nm = Some (Obs last u (OHeader h) buf) -> get_file s nm = Some f ->
    h_zero h = false ->
    ((h_size h = 0 \/ hdr_bytes + h_size h <= f_cur f)%Z -> bs = prefix (h_size h) (f_pay f)) ->
    Step s (upd_obs s p nm (Obs last u (OCopied h bs) bs)) []
| OEndIn p nm last u buf f h ph : get_obs s p nm = Some (Obs last u ph buf) -> get_file s nm = Some f ->
    (exists bs, ph = OInside h bs) \/ ph = OSkipped h ->
    Step s (upd_obs (upd_file s nm (set_lock None f)) p nm (Obs (h_clock h) u (ODone h) buf)) []
| OEndBuf p nm last u buf f h bs : get_obs s p nm = Some (Obs last u (OCopied h bs) buf) -> get_file s nm = Some f ->
    Step s (upd_obs (upd_file s nm (set_lock None f)) p nm (Obs (h_clock h) u (OProcess h bs) buf)) []
| OCallB p nm last u buf h bs : get_obs s p nm = Some (Obs last u (OProcess h bs) buf) ->
    Step s (upd_obs s p nm (Obs last u (ODone h) buf)) [EvDeliver p nm h bs]
| OAckNo p nm last u buf h : get_obs s p nm = Some (Obs last u (ODone h) buf) -> h_ack h = 0%Z ->
    Step s (upd_obs s p nm (Obs last u OIdle buf)) [EvDone p nm]
| OAckYes p nm last u buf h : get_obs s p nm = Some (Obs last u (ODone h) buf) -> h_ack h <> 0%Z ->
    Step s (upd_obs (upd_ack s p nm true) p nm (Obs last u OIdle buf)) [EvAck p nm (h_clock h); EvDone p nm]
| OEnd p nm last u buf : get_obs s p nm = Some (Obs last u OIdle buf) ->
    Step s (Shm (s_ring s) (s_idx s) (s_files s) (s_next s) (s_min s) (s_w s) (adel (p, nm) (s_obs s)) (s_snd s) (s_ack s) (s_now s)) []
| Tick d : (0 <= d)%Z ->
    Step s (Shm (s_ring s) (s_idx s) (s_files s) (s_next s) (s_min s) (s_w s) (s_obs s) (s_snd s) (s_ack s) (s_now s + d)) [].

Lemma some_inj {A} (x y : A) : Some x = Some y -> x = y.
Proof. intros [=]; assumption. Qed.

Lemma resize_length n l : (0 <= n)%Z -> Z.of_nat (length (resize n l)) = n.
Proof. intros P. unfold resize. rewrite app_length, firstn_length, repeat_length. lia. Qed.

Lemma slot_next s nm f size : s_idx s < length (s_ring s) ->
  slot_name (rec_state s nm f size true) = Some (s_next s).
Proof.
  intros L. unfold rec_state, recreate, slot_name; cbn.
  assert (N : forall (l : list (option nat)) i x, i < length l -> nth_error (set_nth i x l) i = Some x).
  { induction l as [|y l IH]; intros [|i] x Li; cbn in *; try lia; [reflexivity|]. apply IH. lia. }
  rewrite N by exact L. reflexivity.
Qed.
Lemma rec_file_new s nm f size : get_file (rec_state s nm f size true) (s_next s) = Some (fresh_file s f size).
Proof. unfold rec_state, recreate, get_file; cbn. apply aget_aset_same. Qed.

Ltac case_in H := match type of H with context[match ?x with _ => _ end] => destruct x eqn:? end.

Lemma step_cases op s s' ev : 0 < length (s_ring s) -> s_idx s < length (s_ring s) ->
  sh_step op s = Some (s', ev) -> (s' = s /\ ev = []) \/ Step s s' ev.
Proof.
  intros L1 L2 E. destruct op; cbn [sh_step] in E.
  - (* prepare *)
    destruct (s_w s) eqn:Ew; try (injection E as <- <-; left; split; reflexivity).
    destruct (length (s_ring s)) as [|n] eqn:EL; [lia|].
    rewrite (Nat.mod_small (s_idx s) (S n)) in E by lia.
    change (Shm (s_ring s) (s_idx s) (s_files s) (s_next s) (s_min s) (WPrepared m) (s_obs s) (s_snd s) (s_ack s) (s_now s))
      with (upd_w s (WPrepared m)) in E.
    change (slot_name (upd_w s (WPrepared m))) with (slot_name s) in E.
    destruct (slot_name s) as [nm|] eqn:Es.
    + change (get_file (upd_w s (WPrepared m)) nm) with (get_file s nm) in E.
      destruct (get_file s nm) as [f|] eqn:Ef; [|injection E as <- <-; left; split; reflexivity].
      destruct (Z.ltb_spec (f_cap f) (hdr_bytes + m_len m)).
      * right. replace s' with (rec_state (upd_w s (WPrepared m)) nm f (hdr_bytes + m_len m + Z.max 0 extra) ok)
          by (unfold rec_state; apply some_inj in E; rewrite E; reflexivity).
        replace ev with (rec_events (upd_w s (WPrepared m)) nm f (hdr_bytes + m_len m + Z.max 0 extra) ok)
          by (unfold rec_events; apply some_inj in E; rewrite E; reflexivity).
        apply PrepRec; auto. unfold hdr_bytes. lia.
      * injection E as <- <-. right. apply PrepKeep; auto. right. exists nm, f. split; [exact Es|]. split; [exact Ef|]. lia.
    + injection E as <- <-. right. apply PrepKeep; auto.
  - (* lock *)
    destruct (s_w s) eqn:Ew; try (injection E as <- <-; left; split; reflexivity).
    destruct (slot_name s) as [nm|] eqn:Es.
    + destruct (get_file s nm) as [f|] eqn:Ef; [|injection E as <- <-; left; split; reflexivity].
      destruct (f_lock f) eqn:El; injection E as <- <-; [left; split; reflexivity|right].
      eapply Lock; eauto.
    + injection E as <- <-. right. eapply LockNone; eauto.
  - (* lock timeout *)
    destruct (s_w s) eqn:Ew; try (injection E as <- <-; left; split; reflexivity).
    destruct (slot_name s) as [nm|] eqn:Es; [|injection E as <- <-; left; split; reflexivity].
    destruct (get_file s nm) as [f|] eqn:Ef; [|injection E as <- <-; left; split; reflexivity].
    destruct (f_lock f) eqn:El; [|injection E as <- <-; left; split; reflexivity].
    destruct (recreate s nm f (f_cap f) ok) as [s1 e1] eqn:Er.
    assert (S1 : s1 = rec_state s nm f (f_cap f) ok) by (unfold rec_state; rewrite Er; reflexivity).
    assert (E1 : e1 = rec_events s nm f (f_cap f) ok) by (unfold rec_events; rewrite Er; reflexivity).
    clear Er. subst s1 e1. destruct ok.
    + rewrite slot_next in E by exact L2. rewrite rec_file_new in E. injection E as <- <-. right. apply LockRec; auto.
    + injection E as <- <-. right. eapply LockFail; eauto.
  - (* header *)
    destruct (s_w s) eqn:Ew; try (injection E as <- <-; left; split; reflexivity).
    destruct (slot_name s) as [nm|] eqn:Es; [|injection E as <- <-; left; split; reflexivity].
    destruct (get_file s nm) as [f|] eqn:Ef; [|injection E as <- <-; left; split; reflexivity].
    injection E as <- <-. right. eapply Header; eauto.
  - (* payload *)
    destruct (s_w s) eqn:Ew; try (injection E as <- <-; left; split; reflexivity).
    destruct (slot_name s) as [nm|] eqn:Es; [|injection E as <- <-; left; split; reflexivity].
    destruct (get_file s nm) as [f|] eqn:Ef; [|injection E as <- <-; left; split; reflexivity].
    destruct (Nat.eqb_spec (length (m_pay m)) 0).
    { injection E as <- <-. right. eapply PayEmpty; eauto. destruct (m_pay m); [reflexivity|discriminate]. }
    destruct (Z.ltb_spec (f_cap f) (hdr_bytes + m_len m)).
    { injection E as <- <-. right. eapply PaySmall; eauto. }
    injection E as <- <-. right. destruct junk as [j|].
    + apply (Pay s m nm f (resize (m_len m) j) false); auto; [apply resize_length; unfold m_len; lia|discriminate].
    + apply (Pay s m nm f (m_pay m) true); auto.
  - (* release *)
    destruct (s_w s) eqn:Ew; try (injection E as <- <-; left; split; reflexivity).
    destruct (slot_name s) as [nm|] eqn:Es; [|injection E as <- <-; left; split; reflexivity].
    destruct (get_file s nm) as [f|] eqn:Ef; [|injection E as <- <-; left; split; reflexivity].
    destruct written.
    + right. destruct (Z.leb_spec (m_ack m) 0); injection E as <- <-; cbn [negb].
      * eapply RelNoAck; eauto.
      * eapply Rel; eauto.
    + injection E as <- <-. right. eapply RelFail; eauto.
  - (* eat *)
    destruct (s_w s) as [|m|m|m|m b1 b2 b3|m [|p eat] st wt t|] eqn:Ew; try (injection E as <- <-; left; split; reflexivity).
    destruct (slot_name s) as [nm|] eqn:Es; [|injection E as <- <-; left; split; reflexivity].
    destruct (Nat.eqb_spec p pid); injection E as <- <-; [right; subst; eapply Eat; eauto|left; split; reflexivity].
  - destruct (s_w s) as [|m|m|m|m b1 b2 b3|m [|p eat] [|p2 st] wt t|] eqn:Ew; try (injection E as <- <-; left; split; reflexivity).
    destruct (slot_name s) as [nm|] eqn:Es; [|injection E as <- <-; left; split; reflexivity].
    destruct (Nat.eqb_spec p2 pid); injection E as <- <-; [right; subst; eapply SetEv; eauto|left; split; reflexivity].
  - destruct (s_w s) as [|m|m|m|m b1 b2 b3|m [|p eat] [|p2 st] [|p3 wt] t|] eqn:Ew; try (injection E as <- <-; left; split; reflexivity).
    destruct (slot_name s) as [nm|] eqn:Es; [|injection E as <- <-; left; split; reflexivity].
    destruct (get_file s nm) as [f|] eqn:Ef; [|injection E as <- <-; left; split; reflexivity].
    destruct (Nat.eqb_spec p3 pid); cbn [andb] in E; [subst|injection E as <- <-; left; split; reflexivity].
    destruct (existsb _ _) eqn:Ex; cbn [negb andb] in E; [injection E as <- <-; left; split; reflexivity|].
    destruct (flag (s_ack s) pid nm) eqn:Ea; injection E as <- <-; [right; eapply AckGot; eauto|left; split; reflexivity].
  - destruct (s_w s) as [|m|m|m|m b1 b2 b3|m [|p eat] [|p2 st] [|p3 wt] t|] eqn:Ew; try (injection E as <- <-; left; split; reflexivity).
    destruct (slot_name s) as [nm|] eqn:Es; [|injection E as <- <-; left; split; reflexivity].
    destruct (get_file s nm) as [f|] eqn:Ef; [|injection E as <- <-; left; split; reflexivity].
    destruct (Nat.eqb_spec p3 pid); cbn [andb] in E; [subst|injection E as <- <-; left; split; reflexivity].
    destruct (existsb _ _) eqn:Ex; cbn [negb andb] in E; [injection E as <- <-; left; split; reflexivity|].
    destruct (Z.leb_spec (t + m_ack m) (s_now s)); injection E as <- <-; [right; eapply AckTO; eauto|left; split; reflexivity].
  - destruct (s_w s) as [|m|m|m|m b1 b2 b3|m [|p eat] [|p2 st] [|p3 wt] t|] eqn:Ew; try (injection E as <- <-; left; split; reflexivity).
    destruct (slot_name s) as [nm|] eqn:Es; [|injection E as <- <-; left; split; reflexivity].
    destruct (get_file s nm) as [f|] eqn:Ef; [|injection E as <- <-; left; split; reflexivity].
    destruct (Nat.eqb_spec p3 pid); cbn [andb] in E; [subst|injection E as <- <-; left; split; reflexivity].
    destruct (existsb _ _) eqn:Ex; injection E as <- <-; [right; eapply AckSkip; eauto|left; split; reflexivity].
  - (* return *)
    destruct (s_w s) as [|m|m|m|m b1 b2 b3|m [|p eat] [|p2 st] [|p3 wt] t|] eqn:Ew; try (injection E as <- <-; left; split; reflexivity).
    + right. injection E as <- <-. apply (Ret s true). left. eauto.
    + right. injection E as <- <-. apply (Ret s false). right. auto.
  - (* connect *)
    destruct (nth_error (s_ring s) slot) as [[nm|]|] eqn:En; try (injection E as <- <-; left; split; reflexivity).
    destruct (s_w s) eqn:Ew.
    6: { destruct (Nat.eqb_spec slot (s_idx s)); [injection E as <- <-; left; split; reflexivity|].
         destruct (get_file s nm) as [f|] eqn:Ef; [|injection E as <- <-; left; split; reflexivity].
         injection E as <- <-. right. eapply Conn; eauto. }
    all: destruct (get_file s nm) as [f|] eqn:Ef; [|injection E as <- <-; left; split; reflexivity];
         injection E as <- <-; right; eapply Conn; eauto; rewrite Ew; discriminate.
  - destruct (get_file s nm) as [f|] eqn:Ef; [|injection E as <- <-; left; split; reflexivity].
    destruct (get_obs s pid nm) eqn:Eo; injection E as <- <-; [left; split; reflexivity|right; eapply OStart; eauto].
  - destruct (get_obs s pid nm) as [[last [|] [] buf]|] eqn:Eo; try (injection E as <- <-; left; split; reflexivity).
    destruct (flag (s_snd s) pid nm) eqn:Fl; injection E as <- <-; [right; eapply OWait; eauto|left; split; reflexivity].
  - destruct (get_obs s pid nm) as [[last [|] [] buf]|] eqn:Eo; try (injection E as <- <-; left; split; reflexivity).
    destruct (get_file s nm) as [f|] eqn:Ef; [|injection E as <- <-; left; split; reflexivity].
    destruct (f_lock f) eqn:El; injection E as <- <-; [left; split; reflexivity|right; eapply OAccess; eauto].
  - destruct (get_obs s pid nm) as [[last u [] buf]|] eqn:Eo; try (injection E as <- <-; left; split; reflexivity).
    destruct (get_file s nm) as [f|] eqn:Ef; [|injection E as <- <-; left; split; reflexivity].
    destruct (Z.leb_spec (h_clock (f_hdr f)) last); injection E as <- <-; right; [eapply OHdrOld|eapply OHdrNew]; eauto.
  - destruct (get_obs s pid nm) as [[last u [] buf]|] eqn:Eo; try (injection E as <- <-; left; split; reflexivity).
    destruct (get_file s nm) as [f|] eqn:Ef; [|injection E as <- <-; left; split; reflexivity].
    right. destruct (h_zero h) eqn:Ez.
    + destruct (Z.eqb_spec (h_size h) 0).
      * injection E as <- <-. pose proof (OZero s pid nm last u buf f h Eo Ef Ez) as X.
        rewrite e in X. cbn [prefix Z.to_nat firstn] in X. apply X. left; reflexivity.
      * destruct (Z.leb_spec (h_size h) (f_cur f)); injection E as <- <-; [eapply OZero|eapply OZeroBad]; eauto.
    + injection E as <- <-. eapply OBuf; eauto. intros P.
      destruct (Z.eqb_spec (h_size h) 0) as [E0|E0]; [rewrite E0; reflexivity|].
      destruct (Z.leb_spec (hdr_bytes + h_size h) (f_cur f)); [reflexivity|lia].
  - destruct (get_obs s pid nm) as [[last u ph buf]|] eqn:Eo; try (injection E as <- <-; left; split; reflexivity).
    destruct (get_file s nm) as [f|] eqn:Ef; [|injection E as <- <-; left; split; reflexivity].
    destruct ph; try (injection E as <- <-; left; split; reflexivity); injection E as <- <-; right.
    + eapply OEndIn; eauto.
    + eapply OEndIn; eauto.
    + eapply OEndBuf; eauto.
  - destruct (get_obs s pid nm) as [[last u [] buf]|] eqn:Eo; try (injection E as <- <-; left; split; reflexivity).
    injection E as <- <-. right. eapply OCallB; eauto.
  - destruct (get_obs s pid nm) as [[last u [] buf]|] eqn:Eo; try (injection E as <- <-; left; split; reflexivity).
    right. destruct (Z.eqb_spec (h_ack h) 0); injection E as <- <-; [eapply OAckNo|eapply OAckYes]; eauto.
  - destruct (get_obs s pid nm) as [[last u [] buf]|] eqn:Eo; try (injection E as <- <-; left; split; reflexivity).
    injection E as <- <-. right. eapply OEnd; eauto.
  - injection E as <- <-. right. apply Tick. lia.
Qed.

(** ** Views of the state *)
Lemma gf_file s n f x : get_file (upd_file s n f) x = if eqb x n then Some f else get_file s x.
Proof. unfold get_file, upd_file; cbn [s_files]. apply aget_aset. Qed.
Lemma gf_w s w x : get_file (upd_w s w) x = get_file s x.
Proof. reflexivity. Qed.
Lemma gf_obs s p n o x : get_file (upd_obs s p n o) x = get_file s x.
Proof. reflexivity. Qed.
Lemma gf_snd s p n b x : get_file (upd_snd s p n b) x = get_file s x.
Proof. reflexivity. Qed.
Lemma gf_ack s p n b x : get_file (upd_ack s p n b) x = get_file s x.
Proof. reflexivity. Qed.
Lemma go_file s n f p x : get_obs (upd_file s n f) p x = get_obs s p x.
Proof. reflexivity. Qed.
Lemma go_w s w p x : get_obs (upd_w s w) p x = get_obs s p x.
Proof. reflexivity. Qed.
Lemma go_obs s p n o q x : get_obs (upd_obs s p n o) q x = if eqb (q, x) (p, n) then Some o else get_obs s q x.
Proof. unfold get_obs, upd_obs; cbn [s_obs]. apply aget_aset. Qed.
Lemma go_snd s p n b q x : get_obs (upd_snd s p n b) q x = get_obs s q x.
Proof. reflexivity. Qed.
Lemma go_ack s p n b q x : get_obs (upd_ack s p n b) q x = get_obs s q x.
Proof. reflexivity. Qed.
Lemma sn_file s n f : slot_name (upd_file s n f) = slot_name s.
Proof. reflexivity. Qed.
Lemma sn_w s w : slot_name (upd_w s w) = slot_name s.
Proof. reflexivity. Qed.
Lemma sn_obs s p n o : slot_name (upd_obs s p n o) = slot_name s.
Proof. reflexivity. Qed.
Lemma sn_snd s p n b : slot_name (upd_snd s p n b) = slot_name s.
Proof. reflexivity. Qed.
Lemma sn_ack s p n b : slot_name (upd_ack s p n b) = slot_name s.
Proof. reflexivity. Qed.
Lemma gf_rec s n f z ok x : get_file (rec_state s n f z ok) x =
  if ok && eqb x (s_next s) then Some (fresh_file s f z)
  else if eqb x n then Some (set_conn [] (set_lock None f)) else get_file s x.
Proof.
  unfold get_file, rec_state, recreate; cbn [fst s_files]. destruct ok; cbn [andb].
  - rewrite aget_aset. destruct (eqb x (s_next s)); [reflexivity|]. apply aget_aset.
  - apply aget_aset.
Qed.
Lemma go_rec s n f z ok p x : get_obs (rec_state s n f z ok) p x = get_obs s p x.
Proof. reflexivity. Qed.
Lemma ring_rec s n f z ok : s_ring (rec_state s n f z ok) = set_nth (s_idx s) (if ok then Some (s_next s) else None) (s_ring s).
Proof. reflexivity. Qed.
#[local] Hint Rewrite gf_file gf_w gf_obs gf_snd gf_ack go_file go_w go_obs go_snd go_ack sn_file sn_w sn_obs sn_snd sn_ack gf_rec go_rec : sh.

Lemma set_nth_length {A} i (x : A) l : length (set_nth i x l) = length l.
Proof. revert i; induction l as [|y l IH]; intros [|i]; cbn; auto. Qed.
Lemma nth_set_nth {A} i j (x : A) l : nth_error (set_nth i x l) j =
  if Nat.eqb j i then (if Nat.ltb i (length l) then Some x else None) else nth_error l j.
Proof.
  revert i j; induction l as [|y l IH]; intros i j.
  - destruct i, j; cbn; try reflexivity. destruct (Nat.eqb j i); reflexivity.
  - destruct i as [|i], j as [|j]; cbn; try reflexivity. rewrite IH. reflexivity.
Qed.

(** ** The ring *)
Record Struct (s : shm) : Prop := {
  t_len : 0 < length (s_ring s);
  t_idx : s_idx s < length (s_ring s);
  t_live : forall i nm, nth_error (s_ring s) i = Some (Some nm) -> exists f, get_file s nm = Some f;
  t_inj : forall i j nm, nth_error (s_ring s) i = Some (Some nm) -> nth_error (s_ring s) j = Some (Some nm) -> i = j;
  t_fresh : forall nm f, get_file s nm = Some f -> nm < s_next s;
  t_obs : forall p nm o, get_obs s p nm = Some o -> exists f, get_file s nm = Some f
}.

Lemma slot_ring s nm : slot_name s = Some nm -> nth_error (s_ring s) (s_idx s) = Some (Some nm).
Proof. unfold slot_name. destruct (nth_error (s_ring s) (s_idx s)) as [[x|]|]; congruence. Qed.
Lemma ring_slot s nm : nth_error (s_ring s) (s_idx s) = Some (Some nm) -> slot_name s = Some nm.
Proof. unfold slot_name. intros ->. reflexivity. Qed.

Lemma struct_frame s s' : Struct s -> s_ring s' = s_ring s -> s_idx s' < length (s_ring s) -> s_next s' = s_next s ->
  (forall nm, get_file s' nm = None <-> get_file s nm = None) ->
  (forall p nm o, get_obs s' p nm = Some o -> (exists o', get_obs s p nm = Some o') \/ exists f, get_file s nm = Some f) ->
  Struct s'.
Proof.
  intros [A B C D E F] R I N G O.
  assert (G' : forall nm, (exists f, get_file s' nm = Some f) <-> (exists f, get_file s nm = Some f)).
  { intros nm. specialize (G nm). destruct (get_file s' nm), (get_file s nm); split; intros [? ?]; try discriminate; eauto.
    - discriminate (proj2 G eq_refl).
    - discriminate (proj1 G eq_refl). }
  constructor; rewrite ?R, ?N; auto.
  - intros i nm H. apply G'. eapply C; eauto.
  - intros nm f H. destruct (proj1 (G' nm)) as [f' H']; eauto.
  - intros p nm o H. apply G'. destruct (O p nm o H) as [[o' H']|H']; eauto.
Qed.

Lemma struct_rec s nm f z ok : Struct s -> slot_name s = Some nm -> get_file s nm = Some f -> Struct (rec_state s nm f z ok).
Proof.
  intros [A B C D E F] S G. pose proof (E nm f G) as Ln. apply slot_ring in S.
  assert (GG : forall x g, get_file s x = Some g -> exists g', get_file (rec_state s nm f z ok) x = Some g').
  { intros x g Hx. rewrite gf_rec. destruct (ok && eqb x (s_next s)); eauto. destruct (eqb x nm); eauto. }
  constructor.
  - cbn. rewrite set_nth_length. exact A.
  - cbn. rewrite set_nth_length. exact B.
  - intros i x. rewrite ring_rec, nth_set_nth. destruct (Nat.eqb_spec i (s_idx s)).
    + destruct (Nat.ltb _ _); [|discriminate]. destruct ok; [|discriminate]. intros [= <-]. rewrite gf_rec, eqb_refl. cbn. eauto.
    + intros H. destruct (C i x H) as [g Hg]. eauto.
  - intros i j x. rewrite ring_rec, !nth_set_nth.
    destruct (Nat.eqb_spec i (s_idx s)), (Nat.eqb_spec j (s_idx s)); subst; auto.
    + destruct (Nat.ltb _ _); [|discriminate]. destruct ok; [|discriminate]. intros [= <-] H.
      destruct (C _ _ H) as [g Hg]. apply E in Hg. lia.
    + destruct (Nat.ltb _ _); [|discriminate]. destruct ok; [|discriminate]. intros H [= <-].
      destruct (C _ _ H) as [g Hg]. apply E in Hg. lia.
    + intros H1 H2. eapply D; eauto.
  - intros x g. rewrite gf_rec. change (s_next (rec_state s nm f z ok)) with (Datatypes.S (s_next s)). destruct (ok && eqb x (s_next s)) eqn:Q.
    + apply andb_true_iff in Q. destruct Q as [_ Q]. apply eqb_true in Q. intros _. lia.
    + destruct (eqb x nm) eqn:Q2; [apply eqb_true in Q2; intros _; lia|]. intros H. apply E in H. lia.
  - intros p x o H. rewrite go_rec in H. destruct (F _ _ _ H) as [g Hg]. eauto.
Qed.

Lemma some_none_iff (s : shm) nm (f : file) : get_file s nm = Some f ->
  forall g x, (if eqb x nm then Some g else get_file s x) = None <-> get_file s x = None.
Proof.
  intros H g x. destruct (eqb x nm) eqn:Q; [|tauto]. apply eqb_true in Q. rewrite Q, H. split; discriminate.
Qed.
Lemma struct_file s nm f g : Struct s -> get_file s nm = Some f -> Struct (upd_file s nm g).
Proof.
  intros S G. apply (struct_frame s); auto.
  - apply (t_idx _ S).
  - intros x. rewrite gf_file. apply (some_none_iff s nm f G).
  - intros p x o H. left. eauto.
Qed.
Lemma struct_w s w : Struct s -> Struct (upd_w s w).
Proof. intros S. apply (struct_frame s); auto; [apply (t_idx _ S)|intros; rewrite gf_w; tauto|intros p x o H; left; eauto]. Qed.
Lemma struct_snd s p n b : Struct s -> Struct (upd_snd s p n b).
Proof. intros S. apply (struct_frame s); auto; [apply (t_idx _ S)|intros; rewrite gf_snd; tauto|intros q x o H; left; eauto]. Qed.
Lemma struct_ack s p n b : Struct s -> Struct (upd_ack s p n b).
Proof. intros S. apply (struct_frame s); auto; [apply (t_idx _ S)|intros; rewrite gf_ack; tauto|intros q x o H; left; eauto]. Qed.
Lemma struct_obs s p n o f : Struct s -> get_file s n = Some f -> Struct (upd_obs s p n o).
Proof.
  intros S G. apply (struct_frame s); auto; [apply (t_idx _ S)|intros; rewrite gf_obs; tauto|].
  intros q x o' H. rewrite go_obs in H. destruct (eqb (q, x) (p, n)) eqn:Q; [|left; eauto].
  apply eqb_true in Q. injection Q as -> ->. right. eauto.
Qed.

Lemma struct_step s s' ev : Struct s -> Step s s' ev -> Struct s'.
Proof.
  intros S H.
  assert (OF : forall p nm o, get_obs s p nm = Some o -> exists f, get_file s nm = Some f) by apply (t_obs _ S).
  destruct H;
    try match goal with K : get_obs s ?p ?n = Some ?o |- _ => destruct (OF _ _ _ K) as [g0 Hg0] end;
    repeat first [ exact S
                 | apply struct_w | apply struct_snd | apply struct_ack
                 | eapply struct_obs; [|autorewrite with sh; rewrite ?eqb_refl; eassumption || reflexivity]
                 | eapply struct_file; [|autorewrite with sh; rewrite ?eqb_refl; eassumption || reflexivity]
                 | eapply struct_rec; [|autorewrite with sh; eassumption|autorewrite with sh; eassumption] ].
  - apply (struct_frame s); auto; cbn.
    + pose proof (t_len _ S). apply Nat.mod_upper_bound. lia.
    + intros; reflexivity.
    + intros q x o K. left. eauto.
  - apply (struct_frame s); auto; [apply (t_idx _ S)|intros; reflexivity|].
    intros q x o K. unfold get_obs in K. cbn [s_obs] in K. rewrite aget_adel in K. destruct (eqb _ _); [discriminate|]. left. eauto.
  - apply (struct_frame s); auto; [apply (t_idx _ S)|intros; reflexivity|]. intros q x o K. left. eauto.
Qed.

(** ** Locks, contents and observers *)
Definition holding (w : wphase) : bool := match w with WLocked _ | WHeaderDone _ | WPayloadDone _ _ _ _ => true | _ => false end.
Definition olocked (ph : ophase) : bool :=
  match ph with OLocked | OHeader _ | OInside _ _ | OSkipped _ | OCopied _ _ => true | _ => false end.

Definition WOk (s : shm) : Prop :=
  match s_w s with
  | WPrepared m => forall nm f, slot_name s = Some nm -> get_file s nm = Some f -> (hdr_bytes + m_len m <= f_cap f)%Z
  | WLocked m => exists nm f, slot_name s = Some nm /\ get_file s nm = Some f /\ f_lock f = Some Pub /\ (hdr_bytes + m_len m <= f_cap f)%Z
  | WHeaderDone m => exists nm f, slot_name s = Some nm /\ get_file s nm = Some f /\ f_lock f = Some Pub /\ (hdr_bytes + m_len m <= f_cap f)%Z
                     /\ f_hdr f = hdr_of m /\ f_cur f = hdr_bytes
  | WPayloadDone m full good w => exists nm f, slot_name s = Some nm /\ get_file s nm = Some f /\ f_lock f = Some Pub /\ w = true
                     /\ f_hdr f = hdr_of m /\ f_cur f = (hdr_bytes + m_len m)%Z /\ length (prefix (m_len m) (f_pay f)) = length (m_pay m)
                     /\ (good = true -> prefix (m_len m) (f_pay f) = m_pay m)
  | _ => True
  end.
Definition LOk (s : shm) : Prop := forall p nm o i f, get_obs s p nm = Some o -> olocked (o_ph o) = true ->
  nth_error (s_ring s) i = Some (Some nm) -> get_file s nm = Some f -> f_lock f = Some (Sub p).
Definition content_ok (tr : list event) (nm : nat) (f : file) : Prop :=
  (f_hdr f = hdr0 /\ f_cur f = hdr_bytes) \/
  ((0 <= h_size (f_hdr f))%Z /\ f_cur f = (hdr_bytes + h_size (f_hdr f))%Z /\ written_as tr nm (f_hdr f) (prefix (h_size (f_hdr f)) (f_pay f))).
Definition COk (s : shm) (tr : list event) : Prop := forall nm f, get_file s nm = Some f ->
  (slot_name s = Some nm -> holding (s_w s) = false) -> content_ok tr nm f.
Definition obs_ok (tr : list event) (p nm : nat) (o : obs) (f : file) : Prop :=
  (0 <= o_last o)%Z /\
  match o_ph o with
  | OIdle | OLocked => Forall (fun c => c <= o_last o)%Z (seen p nm tr)
  | OHeader h => f_hdr f = h /\ (o_last o < h_clock h)%Z /\ Forall (fun c => c <= o_last o)%Z (seen p nm tr)
  | OInside h bs => f_hdr f = h /\ bs = prefix (h_size h) (f_pay f) /\ (o_last o < h_clock h)%Z
                    /\ Forall (fun c => c <= h_clock h)%Z (seen p nm tr) /\ In (EvDeliver p nm h bs) tr
  | OSkipped h => False
  | OCopied h bs => (o_last o < h_clock h)%Z /\ Forall (fun c => c <= o_last o)%Z (seen p nm tr) /\ written_as tr nm h bs
  | OProcess h bs => o_last o = h_clock h /\ Forall (fun c => c < h_clock h)%Z (seen p nm tr) /\ written_as tr nm h bs
  | ODone h => o_last o = h_clock h /\ Forall (fun c => c <= h_clock h)%Z (seen p nm tr) /\ exists bs, In (EvDeliver p nm h bs) tr
  end.
Definition OOk (s : shm) (tr : list event) : Prop := forall p nm o f, get_obs s p nm = Some o -> get_file s nm = Some f -> obs_ok tr p nm o f.
Definition event_ok (tr : list event) (e : event) : Prop :=
  match e with
  | EvDeliver p nm h bs => written_as tr nm h bs /\ Forall (fun c => c < h_clock h)%Z (seen p nm tr)
  | EvAck p nm c => exists h bs, In (EvDeliver p nm h bs) tr /\ h_clock h = c
  | _ => True
  end.
Definition TOk (tr : list event) : Prop := forall a e b, tr = a ++ e :: b -> event_ok a e.

Record InvA (s : shm) (tr : list event) : Prop := {
  a_s : Struct s; a_w : WOk s; a_l : LOk s; a_c : COk s tr; a_o : OOk s tr; a_t : TOk tr
}.

Lemma cut_app {A} (l l2 a b : list A) e : l ++ l2 = a ++ e :: b ->
  (exists b', l = a ++ e :: b' /\ b = b' ++ l2) \/ (exists a', a = l ++ a' /\ l2 = a' ++ e :: b).
Proof.
  revert a; induction l as [|x l IH]; intros a E; cbn in E.
  - right. exists a. split; [reflexivity|exact E].
  - destruct a as [|y a]; cbn in E; injection E as -> E.
    + left. exists l. split; [reflexivity|symmetry; exact E].
    + destruct (IH a E) as [[b' [-> ->]]|[a' [-> E2]]]; [left; exists b'; auto|right; exists a'; split; [reflexivity|exact E2]].
Qed.
Lemma tok_app tr ev : TOk tr -> (forall a e b, ev = a ++ e :: b -> event_ok (tr ++ a) e) -> TOk (tr ++ ev).
Proof.
  intros T H a e b E. apply cut_app in E. destruct E as [[b' [E _]]|[a' [-> E]]]; [eapply T; eauto|eapply H; eauto].
Qed.
Lemma seen_app p nm tr ev : seen p nm (tr ++ ev) = fold_left (seen_step p nm) ev (seen p nm tr).
Proof. unfold seen. apply fold_left_app. Qed.
Lemma written_mono tr ev nm h bs : written_as tr nm h bs -> written_as (tr ++ ev) nm h bs.
Proof. intros [pay [full [good [H K]]]]. exists pay, full, good. split; [apply in_or_app; auto|exact K]. Qed.
Lemma content_mono tr ev nm f : content_ok tr nm f -> content_ok (tr ++ ev) nm f.
Proof. intros [H|[H1 [H2 H3]]]; [left; exact H|right; split; [exact H1|split; [exact H2|apply written_mono; exact H3]]]. Qed.

(** Events that neither start an observer nor hand anything over. *)
Definition quiet (e : event) : bool := match e with EvStart _ _ | EvDeliver _ _ _ _ | EvAck _ _ _ => false | _ => true end.
Lemma quiet_seen p nm ev l : forallb quiet ev = true -> fold_left (seen_step p nm) ev l = l.
Proof.
  revert l; induction ev as [|e ev IH]; intros l H; [reflexivity|]. cbn in H. apply andb_true_iff in H. destruct H as [H1 H2].
  cbn. rewrite IH by exact H2. destruct e; try reflexivity; discriminate.
Qed.
Lemma quiet_tok tr ev : TOk tr -> forallb quiet ev = true -> TOk (tr ++ ev).
Proof.
  intros T H. apply tok_app; [exact T|]. intros a e b E. rewrite forallb_forall in H.
  assert (Q : quiet e = true) by (apply H; rewrite E; apply in_or_app; right; left; reflexivity).
  destruct e; try exact I; discriminate.
Qed.
Lemma obs_ok_mono tr ev p nm o f f' : obs_ok tr p nm o f -> fold_left (seen_step p nm) ev (seen p nm tr) = seen p nm tr ->
  (olocked (o_ph o) = true -> f_hdr f' = f_hdr f /\ f_pay f' = f_pay f) -> obs_ok (tr ++ ev) p nm o f'.
Proof.
  intros [H0 H] Q F. split; [exact H0|]. rewrite seen_app, Q. destruct (o_ph o); auto.
  - destruct (F eq_refl) as [-> _]. exact H.
  - destruct (F eq_refl) as [-> ->]. destruct H as [H1 [H2 [H3 [H4 H5]]]].
    split; [exact H1|]. split; [exact H2|]. split; [exact H3|]. split; [exact H4|apply in_or_app; auto].
  - destruct H as [H1 [H2 H3]]. split; [exact H1|]. split; [exact H2|apply written_mono; exact H3].
  - destruct H as [H1 [H2 H3]]. split; [exact H1|]. split; [exact H2|apply written_mono; exact H3].
  - destruct H as [H1 [H2 [bs H3]]]. split; [exact H1|]. split; [exact H2|]. exists bs. apply in_or_app; auto.
Qed.
Lemma rec_quiet s nm f z ok : forallb quiet (rec_events s nm f z ok) = true.
Proof.
  unfold rec_events, recreate; cbn [snd]. destruct ok; [|reflexivity]. cbn. apply forallb_forall. intros e H.
  apply in_map_iff in H. destruct H as [c [<- _]]. reflexivity.
Qed.

Lemma wok_lock s : WOk s -> holding (s_w s) = true -> exists nm f, slot_name s = Some nm /\ get_file s nm = Some f /\ f_lock f = Some Pub.
Proof.
  unfold WOk. destruct (s_w s); cbn; try discriminate; intros H _.
  - destruct H as [nm [f [H1 [H2 [H3 _]]]]]. eauto.
  - destruct H as [nm [f [H1 [H2 [H3 _]]]]]. eauto.
  - destruct H as [nm [f [H1 [H2 [H3 _]]]]]. eauto.
Qed.

(** A file whose lock the publisher has is not read by anybody. *)
Lemma pub_excludes s nm f p o : LOk s -> slot_name s = Some nm -> get_file s nm = Some f -> f_lock f = Some Pub ->
  get_obs s p nm = Some o -> olocked (o_ph o) = false.
Proof.
  intros L S G P O. destruct (olocked (o_ph o)) eqn:Q; [|reflexivity].
  apply slot_ring in S. rewrite (L _ _ _ _ _ O Q S G) in P. discriminate.
Qed.

(** Which step changes what. *)
Lemma slot_live s nm : Struct s -> slot_name s = Some nm -> exists f, get_file s nm = Some f.
Proof. intros S H. eapply t_live; [exact S|]. apply slot_ring. exact H. Qed.
Lemma next_fresh s : Struct s -> get_file s (s_next s) = None.
Proof. intros S. destruct (get_file s (s_next s)) eqn:E; [|reflexivity]. apply (t_fresh _ S) in E. lia. Qed.
Lemma rec_slot_fail s nm f z : Struct s -> slot_name (rec_state s nm f z false) = None.
Proof.
  intros S. unfold slot_name. rewrite ring_rec. change (s_idx (rec_state s nm f z false)) with (s_idx s).
  rewrite nth_set_nth, Nat.eqb_refl. pose proof (t_idx _ S) as L. apply Nat.ltb_lt in L. rewrite L. reflexivity.
Qed.

Ltac fin := autorewrite with sh in *; rewrite ?eqb_refl in *.

Lemma wok_frame s s' : WOk s -> s_w s' = s_w s -> slot_name s' = slot_name s ->
  (forall nm f, slot_name s = Some nm -> get_file s nm = Some f -> exists f', get_file s' nm = Some f' /\ f_cap f' = f_cap f
     /\ f_hdr f' = f_hdr f /\ f_cur f' = f_cur f /\ f_pay f' = f_pay f /\ (holding (s_w s) = true -> f_lock f' = f_lock f)) ->
  Struct s -> WOk s'.
Proof.
  intros W E1 E2 F S. unfold WOk in *. rewrite E1, E2. destruct (s_w s); auto; cbn [holding] in F.
  - intros nm f Sn G. destruct (slot_live s nm S Sn) as [f0 G0]. destruct (F _ _ Sn G0) as [f' [G' [C _]]].
    rewrite G in G'. injection G' as <-. rewrite C. eapply W; eauto.
  - destruct W as [nm [f [A [B [C D]]]]]. destruct (F _ _ A B) as [f' [G' [X1 [X2 [X3 [X4 X5]]]]]].
    exists nm, f'. rewrite X1, (X5 eq_refl). auto.
  - destruct W as [nm [f [A [B [C D]]]]]. destruct (F _ _ A B) as [f' [G' [X1 [X2 [X3 [X4 X5]]]]]].
    exists nm, f'. rewrite X1, X2, X3, (X5 eq_refl). auto.
  - destruct W as [nm [f [A [B [C D]]]]]. destruct (F _ _ A B) as [f' [G' [X1 [X2 [X3 [X4 X5]]]]]].
    exists nm, f'. rewrite X2, X3, X4, (X5 eq_refl). auto.
Qed.
(** A file read by an observer is not being written. *)
Lemma sub_excludes s nm f p o : Struct s -> WOk s -> LOk s -> slot_name s = Some nm -> get_file s nm = Some f ->
  get_obs s p nm = Some o -> olocked (o_ph o) = true -> holding (s_w s) = false.
Proof.
  intros S W L Sn G O Q. destruct (holding (s_w s)) eqn:E; [|reflexivity].
  destruct (wok_lock s W E) as [x [g [A [B C]]]]. rewrite Sn in A. injection A as <-. rewrite G in B. injection B as <-.
  rewrite (pub_excludes s nm f p o L Sn G C O) in Q. discriminate.
Qed.

Lemma wok_step s s' ev : Struct s -> WOk s -> LOk s -> Step s s' ev -> WOk s'.
Proof.
  intros S W L H. pose proof (t_idx _ S) as TI.
  destruct H; unfold WOk in *;
   try (cbn [s_w upd_w]; exact Logic.I);
   repeat match goal with K : s_w s = _ |- _ => rewrite K in W end.
  - cbn [s_w upd_w]. intros x g. fin. intros H1 H2. destruct H0 as [H0|[nm [f [A [B C]]]]]; congruence.
  - change (s_w (rec_state (upd_w s (WPrepared m)) nm f size ok)) with (WPrepared m). cbn iota. intros x g.
    destruct ok.
    + rewrite slot_next by exact TI. intros Hx Hg. apply some_inj in Hx. subst x. rewrite rec_file_new in Hg.
      apply some_inj in Hg. subst g. cbn. unfold hdr_bytes. lia.
    + rewrite rec_slot_fail; [discriminate|]. apply struct_w; exact S.
  - cbn [s_w upd_w]. exists nm, (set_lock (Some Pub) f). fin. repeat split; auto. cbn. eapply W; eauto.
  - cbn [s_w upd_w]. exists (s_next s), (set_lock (Some Pub) (fresh_file s f (f_cap f))). rewrite sn_w, sn_file, gf_w, gf_file, eqb_refl.
    rewrite slot_next by exact TI. repeat split; auto. specialize (W _ _ H0 H1). cbn. unfold hdr_bytes in *. lia.
  - cbn [s_w upd_w]. destruct W as [x [g [A [B [C D]]]]]. rewrite H0 in A. injection A as <-. rewrite H1 in B. injection B as <-.
    exists nm. eexists. fin. split; [exact H0|]. split; [reflexivity|]. cbn. auto.
  - cbn [s_w upd_w]. destruct W as [x [g [A [B [C [D [E1 E2]]]]]]]. exists x, g. fin. unfold m_len in *. rewrite H2 in *. cbn in *.
    rewrite E2. auto 10.
  - exfalso. destruct W as [x [g [A [B [C [D _]]]]]]. rewrite H0 in A. injection A as <-. rewrite H1 in B. injection B as <-. lia.
  - cbn [s_w upd_w]. destruct W as [x [g [A [B [C [D [E1 E2]]]]]]]. rewrite H0 in A. injection A as <-. rewrite H1 in B. injection B as <-.
    exists nm. eexists. fin. split; [exact H0|]. split; [reflexivity|]. cbn [f_lock f_hdr f_cur f_pay].
    assert (P : prefix (m_len m) (bs ++ skipn (length bs) (f_pay f)) = bs).
    { unfold prefix. rewrite <- H2, Nat2Z.id, firstn_app, Nat.sub_diag. cbn. rewrite app_nil_r. apply firstn_all. }
    rewrite P. split; [exact C|]. split; [reflexivity|]. split; [exact E1|]. split; [reflexivity|]. split; [unfold m_len in H2; lia|exact H3].
  - (* connect *)
    apply (wok_frame s); auto. intros x g Hx Hg. fin. destruct (eqb x nm) eqn:Q.
    + apply eqb_true in Q. subst x. rewrite H0 in Hg. injection Hg as <-. eexists. split; [reflexivity|]. cbn. auto 10.
    + exists g. auto 10.
  - exact W.
  - exact W.
  - apply (wok_frame s); auto. intros x g Hx Hg. fin. destruct (eqb x nm) eqn:Q.
    + apply eqb_true in Q. subst x. rewrite H0 in Hg. injection Hg as <-. eexists. split; [reflexivity|]. cbn. repeat split; auto.
      intros K. destruct (wok_lock s W K) as [y [h [A [B C]]]]. congruence.
    + exists g. auto 10.
  - apply (wok_frame s); auto. intros x g Hx Hg. fin. destruct (eqb x nm) eqn:Q.
    + apply eqb_true in Q. subst x. rewrite H0 in Hg. injection Hg as <-. eexists. split; [reflexivity|]. cbn. repeat split; auto.
      intros K. rewrite (sub_excludes s nm f p _ S W L Hx H0 H eq_refl) in K. discriminate.
    + exists g. auto 10.
  - exact W.
  - exact W.
  - exact W.
  - exact W.
  - apply (wok_frame s); auto. intros x g Hx Hg. fin. destruct (eqb x nm) eqn:Q.
    + apply eqb_true in Q. subst x. rewrite H0 in Hg. injection Hg as <-. eexists. split; [reflexivity|]. cbn. repeat split; auto.
      intros K. rewrite (sub_excludes s nm f p _ S W L Hx H0 H) in K; [discriminate|].
      cbn. destruct H1 as [[bs ->]| ->]; reflexivity.
    + exists g. auto 10.
  - apply (wok_frame s); auto. intros x g Hx Hg. fin. destruct (eqb x nm) eqn:Q.
    + apply eqb_true in Q. subst x. rewrite H0 in Hg. injection Hg as <-. eexists. split; [reflexivity|]. cbn. repeat split; auto.
      intros K. rewrite (sub_excludes s nm f p _ S W L Hx H0 H eq_refl) in K. discriminate.
    + exists g. auto 10.
  - exact W.
  - exact W.
  - exact W.
  - exact W.
  - exact W.
Qed.

(** The lock of the files of the ring changes only when nobody reads them. *)
Lemma lok_file s nm f g w : LOk s -> get_file s nm = Some f ->
  (f_lock g = f_lock f \/ forall p o, get_obs s p nm = Some o -> olocked (o_ph o) = false) ->
  LOk (upd_w (upd_file s nm g) w).
Proof.
  intros L G H p x o i h O Q R K. fin. destruct (eqb x nm) eqn:E.
  - apply eqb_true in E. subst x. injection K as <-. destruct H as [H|H].
    + rewrite H. eapply L; eauto.
    + rewrite (H _ _ O) in Q. discriminate.
  - eapply L; eauto.
Qed.
Lemma lok_rec s nm f z ok w : Struct s -> LOk s -> slot_name s = Some nm -> get_file s nm = Some f -> LOk (upd_w (rec_state s nm f z ok) w).
Proof.
  intros S L Sn G p x o i h O Q R K. change (s_ring (upd_w (rec_state s nm f z ok) w)) with (s_ring (rec_state s nm f z ok)) in R.
  rewrite ring_rec, nth_set_nth in R. rewrite go_w, go_rec in O. rewrite gf_w, gf_rec in K.
  destruct (t_obs _ S _ _ _ O) as [g Hg]. pose proof (t_fresh _ S _ _ Hg) as Lx.
  rewrite (neq_eqb x (s_next s)) in K by lia. rewrite andb_false_r in K.
  destruct (Nat.eqb_spec i (s_idx s)) as [->|Ni].
  - destruct (Nat.ltb _ _); [|discriminate]. destruct ok; [|discriminate]. injection R as <-. lia.
  - rewrite neq_eqb in K; [eapply L; eauto|]. intros ->. apply Ni. eapply (t_inj _ S); [exact R|apply slot_ring; exact Sn].
Qed.
Lemma lok_obs s p nm o : LOk s -> (olocked (o_ph o) = true -> exists o', get_obs s p nm = Some o' /\ olocked (o_ph o') = true) ->
  LOk (upd_obs s p nm o).
Proof.
  intros L H q x o1 i h O Q R K. fin. destruct (eqb (q, x) (p, nm)) eqn:E.
  - apply eqb_true in E. injection E as -> ->. injection O as <-. destruct (H Q) as [o' [A B]]. eapply L; eauto.
  - eapply L; eauto.
Qed.
Lemma lok_obs_file s p nm o f g : Struct s -> LOk s -> get_file s nm = Some f ->
  (f_lock g = Some (Sub p) \/ olocked (o_ph o) = false) ->
  (f_lock f = None \/ exists o', get_obs s p nm = Some o' /\ olocked (o_ph o') = true) ->
  LOk (upd_obs (upd_file s nm g) p nm o).
Proof.
  intros S L G H1 H2 q x o1 i h O Q R K. fin. cbn in R. destruct (eqb (q, x) (p, nm)) eqn:E.
  - apply eqb_true in E. injection E as -> ->. injection O as <-. rewrite eqb_refl in K. injection K as <-.
    destruct H1 as [H1|H1]; [exact H1|congruence].
  - apply eqb_false in E. destruct (eqb x nm) eqn:E2; [|eapply L; eauto].
    apply eqb_true in E2. subst x. exfalso. pose proof (L _ _ _ _ _ O Q R G) as X.
    destruct H2 as [H2|[o' [A B]]]; [congruence|]. rewrite (L _ _ _ _ _ A B R G) in X. injection X as ->. congruence.
Qed.

Lemma lok_step s s' ev : Struct s -> WOk s -> LOk s -> Step s s' ev -> LOk s'.
Proof.
  intros S W L H.
  assert (PE : forall nm f p o, slot_name s = Some nm -> get_file s nm = Some f -> holding (s_w s) = true ->
                                get_obs s p nm = Some o -> olocked (o_ph o) = false).
  { intros nm f p o Sn G Hh O. destruct (wok_lock s W Hh) as [x [g [A [B C]]]]. rewrite Sn in A. injection A as <-.
    eapply pub_excludes; eauto. }
  destruct H; try exact L.
  - apply (lok_rec (upd_w s (WPrepared m)) nm f size ok (WPrepared m)); auto. apply struct_w; exact S.
  - apply (lok_file s nm f); auto. right. intros p o O. destruct (olocked (o_ph o)) eqn:Q; [|reflexivity].
    rewrite (L _ _ _ _ _ O Q (slot_ring _ _ H0) H1) in H2. discriminate.
  - apply lok_rec; auto.
  - pose proof (lok_rec s nm f (f_cap f) true (WLocked m) S L H0 H1) as LR.
    apply (lok_file _ _ (fresh_file s f (f_cap f)) _ _ (lok_rec s nm f (f_cap f) true (s_w s) S L H0 H1)).
    + rewrite gf_w. apply rec_file_new.
    + right. intros p o O. rewrite go_w, go_rec in O. destruct (t_obs _ S _ _ _ O) as [g Hg]. rewrite next_fresh in Hg by exact S. discriminate.
  - apply (lok_file s nm f); auto.
  - apply (lok_file s nm f); auto.
  - apply (lok_file s nm f); auto. right. intros p o O. eapply PE; eauto. rewrite H. reflexivity.
  - apply (lok_file s nm f); auto. right. intros p o O. eapply PE; eauto. rewrite H. reflexivity.
  - apply (lok_file s nm f); auto. right. intros p o O. eapply PE; eauto. rewrite H. reflexivity.
  - apply (lok_file s nm f); auto.
  - apply (lok_file s nm f _ (s_w s)); auto.
  - apply lok_obs; [exact L|discriminate].
  - apply lok_obs; [exact L|discriminate].
  - eapply lok_obs_file; eauto.
  - eapply lok_obs_file; eauto.
  - apply lok_obs; [exact L|]. intros _. exists (Obs last u OLocked buf). auto.
  - apply lok_obs; [exact L|]. intros _. exists (Obs last u (OHeader h) buf). auto.
  - apply lok_obs; [exact L|]. intros _. exists (Obs last u (OHeader h) buf). auto.
  - apply lok_obs; [exact L|]. intros _. exists (Obs last u (OHeader h) buf). auto.
  - eapply lok_obs_file; eauto. right. exists (Obs last u ph buf). split; [exact H|]. destruct H1 as [[bs ->]| ->]; reflexivity.
  - eapply lok_obs_file; eauto.
  - apply lok_obs; [exact L|discriminate].
  - apply lok_obs; [exact L|discriminate].
  - apply lok_obs; [exact L|discriminate].
  - intros q x o i h O Q R K. unfold get_obs in O. cbn [s_obs] in O. rewrite aget_adel in O.
    destruct (eqb _ _); [discriminate|]. eapply L; eauto.
Qed.

Lemma cok_frame s s' tr ev : COk s tr ->
  (forall nm f', get_file s' nm = Some f' -> (slot_name s' = Some nm -> holding (s_w s') = false) ->
     content_ok (tr ++ ev) nm f' \/
     exists f, get_file s nm = Some f /\ f_hdr f' = f_hdr f /\ f_cur f' = f_cur f /\ f_pay f' = f_pay f
               /\ (slot_name s = Some nm -> holding (s_w s) = false)) -> COk s' (tr ++ ev).
Proof.
  intros C H nm f' G Hh. destruct (H nm f' G Hh) as [K|[f [A [B1 [B2 [B3 D]]]]]]; [exact K|].
  apply content_mono. specialize (C nm f A D). unfold content_ok in *. rewrite B1, B2, B3. exact C.
Qed.

Ltac cf_same := apply (cok_frame _ _ _ _ ltac:(eassumption)); intros x g Hg Hh; right; exists g;
  autorewrite with sh in *; cbn [s_w upd_w upd_obs upd_ack upd_snd upd_file] in *.

Lemma cok_step s s' ev tr : Struct s -> WOk s -> COk s tr -> Step s s' ev -> COk s' (tr ++ ev).
Proof.
  intros S W C H.
  assert (ND : forall x, (slot_name s = Some x -> holding (s_w s) = false) \/ (slot_name s = Some x /\ holding (s_w s) = true)).
  { intros x. destruct (holding (s_w s)); [|left; auto].
    destruct (slot_name s) as [y|]; [|left; discriminate]. destruct (Nat.eq_dec x y); [right; subst; auto|left; congruence]. }
  destruct H;
    try (cf_same; repeat split; auto; repeat match goal with K : s_w s = _ |- _ => rewrite K in * end; cbn in *; auto; fail).
  - (* PrepRec *)
    apply (cok_frame s); auto. intros x g Hg _. rewrite gf_rec in Hg. rewrite H.
    destruct (ok && eqb x (s_next (upd_w s (WPrepared m)))) eqn:Q; [injection Hg as <-; left; left; auto|].
    right. destruct (eqb x nm) eqn:Q2.
    + apply eqb_true in Q2. subst x. injection Hg as <-. exists f. auto 10.
    + exists g. auto 10.
  - (* Lock *)
    apply (cok_frame s); auto. intros x g Hg _. right. fin. rewrite H. destruct (eqb x nm) eqn:Q.
    + apply eqb_true in Q. subst x. injection Hg as <-. exists f. auto 10.
    + exists g. auto 10.
  - (* LockFail *)
    apply (cok_frame s); auto. intros x g Hg _. rewrite gf_w, gf_rec in Hg. cbn [andb] in Hg. right. rewrite H. destruct (eqb x nm) eqn:Q.
    + apply eqb_true in Q. subst x. injection Hg as <-. exists f. auto 10.
    + exists g. auto 10.
  - (* LockRec *)
    apply (cok_frame s); auto. intros x g Hg _. rewrite gf_w, gf_file, gf_rec in Hg. rewrite H.
    destruct (eqb x (s_next s)) eqn:Q; cbn [andb] in Hg; [injection Hg as <-; left; left; auto|].
    right. destruct (eqb x nm) eqn:Q2.
    + apply eqb_true in Q2. subst x. injection Hg as <-. exists f. auto 10.
    + exists g. auto 10.
  - (* Header *)
    apply (cok_frame s); auto. intros x g Hg Hh. fin. cbn in Hh. right. destruct (eqb x nm) eqn:Q.
    + apply eqb_true in Q. subst x. discriminate (Hh H0).
    + exists g. apply eqb_false in Q. repeat split; auto; congruence.
  - (* Pay *)
    apply (cok_frame s); auto. intros x g Hg Hh. fin. cbn in Hh. right. destruct (eqb x nm) eqn:Q.
    + apply eqb_true in Q. subst x. discriminate (Hh H0).
    + exists g. apply eqb_false in Q. repeat split; auto; congruence.
  - (* Rel *)
    apply (cok_frame s); auto. intros x g Hg Hh. fin. destruct (eqb x nm) eqn:Q.
    + apply eqb_true in Q. subst x. injection Hg as <-. left. right. unfold WOk in W. rewrite H in W.
      destruct W as [y [k [A [B [_ [_ [D1 [D2 [D3 D4]]]]]]]]]. rewrite H0 in A. injection A as <-. rewrite H1 in B. injection B as <-.
      cbn [set_lock f_hdr f_cur f_pay]. rewrite D1, D2. cbn [hdr_of h_size]. split; [unfold m_len; lia|]. split; [reflexivity|].
      exists (m_pay m), full, good. split; [apply in_or_app; right; left; reflexivity|]. auto.
    + right. exists g. apply eqb_false in Q. repeat split; auto; congruence.
  - (* RelNoAck *)
    apply (cok_frame s); auto. intros x g Hg Hh. fin. destruct (eqb x nm) eqn:Q.
    + apply eqb_true in Q. subst x. injection Hg as <-. left. right. unfold WOk in W. rewrite H in W.
      destruct W as [y [k [A [B [_ [_ [D1 [D2 [D3 D4]]]]]]]]]. rewrite H0 in A. injection A as <-. rewrite H1 in B. injection B as <-.
      cbn [set_lock f_hdr f_cur f_pay]. rewrite D1, D2. cbn [hdr_of h_size]. split; [unfold m_len; lia|]. split; [reflexivity|].
      exists (m_pay m), full, good. split; [apply in_or_app; right; left; reflexivity|]. auto.
    + right. exists g. apply eqb_false in Q. repeat split; auto; congruence.
  - (* RelFail *)
    exfalso. unfold WOk in W. rewrite H in W. destruct W as [y [k [A [B [_ [D _]]]]]]. discriminate.
  - (* AckTO *)
    apply (cok_frame s); auto. intros x g Hg Hh. fin. right. rewrite H. destruct (eqb x nm) eqn:Q.
    + apply eqb_true in Q. subst x. injection Hg as <-. exists f. auto 10.
    + exists g. auto 10.
  - (* Ret *)
    apply (cok_frame s); auto. intros x g Hg Hh. right. exists g. repeat split; auto.
    destruct H as [[m [t [-> _]]]|[-> _]]; reflexivity.
  - (* Conn *)
    apply (cok_frame s); auto. intros x g Hg Hh. fin. right. cbn in Hh. destruct (eqb x nm) eqn:Q.
    + apply eqb_true in Q. subst x. injection Hg as <-. exists f. auto 10.
    + exists g. auto 10.
  - (* OAccess *)
    apply (cok_frame s); auto. intros x g Hg Hh. fin. right. cbn in Hh. destruct (eqb x nm) eqn:Q.
    + apply eqb_true in Q. subst x. injection Hg as <-. exists f. auto 10.
    + exists g. auto 10.
  - apply (cok_frame s); auto. intros x g Hg Hh. fin. right. cbn in Hh. destruct (eqb x nm) eqn:Q.
    + apply eqb_true in Q. subst x. injection Hg as <-. exists f. auto 10.
    + exists g. auto 10.
  - apply (cok_frame s); auto. intros x g Hg Hh. fin. right. cbn in Hh. destruct (eqb x nm) eqn:Q.
    + apply eqb_true in Q. subst x. injection Hg as <-. exists f. auto 10.
    + exists g. auto 10.
  - apply (cok_frame s); auto. intros x g Hg Hh. fin. right. cbn in Hh. destruct (eqb x nm) eqn:Q.
    + apply eqb_true in Q. subst x. injection Hg as <-. exists f. auto 10.
    + exists g. auto 10.
Qed.

Lemma oo_frame s s' tr ev : OOk s tr ->
  (forall p nm o f', get_obs s' p nm = Some o -> get_file s' nm = Some f' ->
     obs_ok (tr ++ ev) p nm o f' \/
     exists f, get_obs s p nm = Some o /\ get_file s nm = Some f /\ fold_left (seen_step p nm) ev (seen p nm tr) = seen p nm tr
       /\ (olocked (o_ph o) = true -> f_hdr f' = f_hdr f /\ f_pay f' = f_pay f)) -> OOk s' (tr ++ ev).
Proof.
  intros C H p nm o f' O G. destruct (H p nm o f' O G) as [K|[f [A [B [D E]]]]]; [exact K|].
  eapply obs_ok_mono; [exact (C _ _ _ _ A B)|exact D|exact E].
Qed.
(** Steps of the publisher. *)
Lemma oo_writer s s' tr ev : OOk s tr -> forallb quiet ev = true -> (forall p nm, get_obs s' p nm = get_obs s p nm) ->
  (forall p nm o f', get_obs s p nm = Some o -> get_file s' nm = Some f' ->
     exists f, get_file s nm = Some f /\ (olocked (o_ph o) = true -> f_hdr f' = f_hdr f /\ f_pay f' = f_pay f)) -> OOk s' (tr ++ ev).
Proof.
  intros C Q HO H. apply (oo_frame s); [exact C|]. intros p nm o f' O G. right. rewrite HO in O. destruct (H _ _ _ _ O G) as [f [A B]].
  exists f. split; [exact O|]. split; [exact A|]. split; [apply quiet_seen; exact Q|exact B].
Qed.
Lemma oo_file s nm f g w tr ev : OOk s tr -> forallb quiet ev = true -> get_file s nm = Some f ->
  ((f_hdr g = f_hdr f /\ f_pay g = f_pay f) \/ forall p o, get_obs s p nm = Some o -> olocked (o_ph o) = false) ->
  OOk (upd_w (upd_file s nm g) w) (tr ++ ev).
Proof.
  intros C Q G H. apply (oo_writer s); auto. intros p x o f' O K. fin. destruct (eqb x nm) eqn:E.
  - apply eqb_true in E. subst x. injection K as <-. exists f. split; [exact G|]. intros L.
    destruct H as [H|H]; [exact H|rewrite (H _ _ O) in L; discriminate].
  - exists f'. auto.
Qed.
Lemma oo_rec s nm f z ok w tr ev : Struct s -> OOk s tr -> forallb quiet ev = true -> get_file s nm = Some f ->
  OOk (upd_w (rec_state s nm f z ok) w) (tr ++ ev).
Proof.
  intros S C Q G. apply (oo_writer s); auto. intros p x o f' O K. rewrite gf_w, gf_rec in K.
  destruct (t_obs _ S _ _ _ O) as [g Hg]. pose proof (t_fresh _ S _ _ Hg) as Lx.
  rewrite (neq_eqb x (s_next s)) in K by lia. rewrite andb_false_r in K. destruct (eqb x nm) eqn:E.
  - apply eqb_true in E. subst x. injection K as <-. exists f. auto.
  - exists f'. auto.
Qed.
(** Steps of an observer. *)
Lemma seen_other p nm q x ev l : (q, x) <> (p, nm) ->
  (forall e, In e ev -> match e with EvStart a b | EvDeliver a b _ _ => a = p /\ b = nm | _ => True end) ->
  fold_left (seen_step q x) ev l = l.
Proof.
  intros N. revert l; induction ev as [|e ev IH]; intros l H; [reflexivity|]. cbn. rewrite IH by (intros e' He; apply H; right; exact He).
  assert (NE : forall a b, a = p /\ b = nm -> Nat.eqb a q && Nat.eqb b x = false).
  { intros a b [-> ->]. destruct (Nat.eqb_spec p q), (Nat.eqb_spec nm x); cbn; congruence. }
  specialize (H e (or_introl eq_refl)). destruct e; cbn; try reflexivity; rewrite NE by exact H; reflexivity.
Qed.
Lemma oo_obs s s' p nm o f tr ev : OOk s tr -> get_file s nm = Some f ->
  (forall q x, get_obs s' q x = if eqb (q, x) (p, nm) then Some o else get_obs s q x) ->
  (forall x, exists l, get_file s' x = if eqb x nm then Some (set_lock l f) else get_file s x) ->
  (forall e, In e ev -> match e with EvStart a b | EvDeliver a b _ _ => a = p /\ b = nm | _ => True end) ->
  (forall l, obs_ok (tr ++ ev) p nm o (set_lock l f)) -> OOk s' (tr ++ ev).
Proof.
  intros C G HO HF HE H. apply (oo_frame s); [exact C|]. intros q x o' f' O K. rewrite HO in O. destruct (HF x) as [l Hl]. rewrite Hl in K.
  destruct (eqb (q, x) (p, nm)) eqn:E.
  - apply eqb_true in E. injection E as -> ->. rewrite eqb_refl in K. injection K as <-. injection O as <-. left. apply H.
  - apply eqb_false in E. right. destruct (eqb x nm) eqn:E2.
    + apply eqb_true in E2. subst x. injection K as <-. exists f. split; [exact O|]. split; [exact G|].
      split; [apply (seen_other p nm); auto|]. cbn. auto.
    + exists f'. split; [exact O|]. split; [exact K|]. split; [apply (seen_other p nm); auto|]. auto.
Qed.
Lemma seen_self p nm tr h bs : seen p nm (tr ++ [EvDeliver p nm h bs]) = h_clock h :: seen p nm tr.
Proof. rewrite seen_app. cbn. rewrite !Nat.eqb_refl. reflexivity. Qed.

(** What an observer reads while it has access. *)
Lemma read_content s tr p nm last u buf f h : Struct s -> WOk s -> LOk s -> COk s tr -> OOk s tr ->
  get_obs s p nm = Some (Obs last u (OHeader h) buf) -> get_file s nm = Some f ->
  f_hdr f = h /\ (0 <= last < h_clock h)%Z /\ (0 <= h_size h)%Z /\ f_cur f = (hdr_bytes + h_size h)%Z /\ written_as tr nm h (prefix (h_size h) (f_pay f))
  /\ Forall (fun c => c <= last)%Z (seen p nm tr).
Proof.
  intros S W L C O Ho Hf. destruct (O _ _ _ _ Ho Hf) as [P0 [P1 [P2 P3]]]. cbn in *.
  split; [exact P1|]. split; [lia|].
  assert (K : content_ok tr nm f).
  { apply (C nm f Hf). intros Sn. eapply sub_excludes; eauto. }
  destruct K as [[K _]|[K1 [K2 K3]]].
  - rewrite K in P1. rewrite <- P1 in P2. cbn in P2. lia.
  - rewrite P1 in *. auto.
Qed.

Lemma forall_mono (P Q : Z -> Prop) l : (forall c, P c -> Q c) -> Forall P l -> Forall Q l.
Proof. intros H. apply Forall_impl. exact H. Qed.

Lemma tok_deliver tr p nm h bs : TOk tr -> written_as tr nm h bs -> Forall (fun c => c < h_clock h)%Z (seen p nm tr) ->
  TOk (tr ++ [EvDeliver p nm h bs]).
Proof.
  intros T H1 H2. apply tok_app; [exact T|]. intros a e b E. destruct a as [|x a]; cbn in E.
  - injection E as <- _. rewrite app_nil_r. split; assumption.
  - injection E as _ E. destruct a; discriminate.
Qed.

Ltac file_same := let x := fresh in intros x; fin; first [exists None; reflexivity | eexists; reflexivity].

Lemma oot_step s s' ev tr : Struct s -> WOk s -> LOk s -> COk s tr -> OOk s tr -> TOk tr -> Step s s' ev -> OOk s' (tr ++ ev) /\ TOk (tr ++ ev).
Proof.
  intros S W L C O T H.
  assert (PE : forall nm f p o, slot_name s = Some nm -> get_file s nm = Some f -> holding (s_w s) = true ->
                                get_obs s p nm = Some o -> olocked (o_ph o) = false).
  { intros nm f p o Sn G Hh Ho. destruct (wok_lock s W Hh) as [x [g [A [B K]]]]. rewrite Sn in A. injection A as <-.
    eapply pub_excludes; eauto. }
  assert (SAME : forall s1, forallb quiet ev = true -> (forall p nm, get_obs s1 p nm = get_obs s p nm) -> (forall nm, get_file s1 nm = get_file s nm) ->
                  OOk s1 (tr ++ ev) /\ TOk (tr ++ ev)).
  { intros s1 Q G1 G2. split; [|apply quiet_tok; auto]. apply (oo_writer s); auto. intros p nm o f' Ho Hf. rewrite G2 in Hf. eauto. }
  assert (SELF : forall nm f, get_file s nm = Some f -> forall x, exists l, get_file s x = if eqb x nm then Some (set_lock l f) else get_file s x).
  { intros nm f G x. exists (f_lock f). destruct (eqb x nm) eqn:Q; [|reflexivity]. apply eqb_true in Q. subst x. rewrite G. destruct f; reflexivity. }
  destruct H; try (apply SAME; auto; fail).
  - split; [|apply quiet_tok; [exact T|apply rec_quiet]].
    apply (oo_rec (upd_w s (WPrepared m)) nm f size ok (WPrepared m)); auto; [apply struct_w; exact S|apply rec_quiet].
  - split; [|apply quiet_tok; auto]. apply (oo_file s nm f); auto.
  - split; [|apply quiet_tok; auto]. apply oo_rec; auto.
  - assert (Q : forallb quiet (rec_events s nm f (f_cap f) true ++ [EvBegin (s_next s)]) = true)
      by (rewrite forallb_app, rec_quiet; reflexivity).
    split; [|apply quiet_tok; auto].
    apply (oo_writer s); auto. intros p x o f' Ho K. rewrite gf_w, gf_file, gf_rec in K.
    destruct (t_obs _ S _ _ _ Ho) as [g Hg]. pose proof (t_fresh _ S _ _ Hg) as Lx.
    rewrite (neq_eqb x (s_next s)) in K by lia. cbn [andb] in K. destruct (eqb x nm) eqn:E.
    + apply eqb_true in E. subst x. injection K as <-. exists f. auto.
    + exists f'. auto.
  - split; [|apply quiet_tok; auto]. apply (oo_file s nm f); auto. right. intros p o Ho. eapply PE; eauto. rewrite H. reflexivity.
  - split; [|apply quiet_tok; auto]. apply (oo_file s nm f); auto. right. intros p o Ho. eapply PE; eauto. rewrite H. reflexivity.
  - split; [|apply quiet_tok; auto]. apply (oo_file s nm f); auto.
  - split; [|apply quiet_tok; auto]. apply (oo_file s nm f); auto.
  - split; [|apply quiet_tok; auto]. apply (oo_file s nm f); auto.
  - split; [|apply quiet_tok; auto]. apply (oo_file s nm f); auto.
  - split; [|apply quiet_tok; auto]. apply (oo_file s nm f _ (s_w s)); auto.
  - (* OStart *)
    split.
    + apply (oo_obs s _ p nm obs0 f); auto; [intros; fin; reflexivity|apply SELF; auto| |].
      * intros e [<-|[]]. auto.
      * intros l. split; [cbn; lia|]. cbn [o_ph obs0]. rewrite seen_app. cbn. rewrite !Nat.eqb_refl. constructor.
    + apply tok_app; [exact T|]. intros a e b E. destruct a as [|y a]; cbn in E; [injection E as <- _; exact Logic.I|].
      injection E as _ E. destruct a; discriminate.
  - (* OWait *)
    split; [|apply quiet_tok; auto]. destruct (t_obs _ S _ _ _ H) as [f Hf].
    apply (oo_obs s _ p nm (Obs last true OIdle buf) f); auto; [intros; fin; reflexivity|apply SELF; auto|intros e []|].
    intros l. pose proof (O _ _ _ _ H Hf) as K. rewrite app_nil_r. exact K.
  - (* OAccess *)
    split; [|apply quiet_tok; auto].
    apply (oo_obs s _ p nm (Obs last false OLocked buf) f); auto; [intros; fin; reflexivity|intros; fin; eexists; reflexivity|intros e []|].
    intros l. pose proof (O _ _ _ _ H H0) as K. rewrite app_nil_r. exact K.
  - split; [|apply quiet_tok; auto].
    apply (oo_obs s _ p nm (Obs last u OIdle buf) f); auto; [intros; fin; reflexivity|intros; fin; eexists; reflexivity|intros e []|].
    intros l. pose proof (O _ _ _ _ H H0) as K. rewrite app_nil_r. exact K.
  - (* OHdrNew *)
    split; [|apply quiet_tok; auto].
    apply (oo_obs s _ p nm (Obs last u (OHeader (f_hdr f)) buf) f); auto; [intros; fin; reflexivity|apply SELF; auto|intros e [<-|[]]; exact Logic.I|].
    intros l. destruct (O _ _ _ _ H H0) as [K0 K]. split; [exact K0|]. cbn in *. rewrite seen_app. cbn. auto.
  - (* OZero *)
    destruct (read_content _ _ _ _ _ _ _ _ _ S W L C O H H0) as [R1 [R2 [R3 [R4 [R5 R6]]]]].
    assert (R7 : Forall (fun c => c < h_clock h)%Z (seen p nm tr)) by (eapply forall_mono; [|exact R6]; cbn; lia).
    split; [|apply tok_deliver; auto].
    apply (oo_obs s _ p nm (Obs last u (OInside h (prefix (h_size h) (f_pay f))) buf) f); auto;
      [intros; fin; reflexivity|apply SELF; auto|intros e [<-|[]]; auto|].
    intros l. split; [cbn; lia|]. cbn [o_ph o_last set_lock f_hdr f_pay]. rewrite seen_self.
    split; [exact R1|]. split; [reflexivity|]. split; [lia|]. split; [constructor; [lia|eapply forall_mono; [|exact R7]; cbn; lia]|].
    apply in_or_app. right. left. reflexivity.
  - (* OZeroBad *)
    exfalso. destruct (read_content _ _ _ _ _ _ _ _ _ S W L C O H H0) as [R1 [R2 [R3 [R4 [R5 R6]]]]]. unfold hdr_bytes in R4. lia.
  - (* OBuf *)
    destruct (read_content _ _ _ _ _ _ _ _ _ S W L C O H H0) as [R1 [R2 [R3 [R4 [R5 R6]]]]].
    split; [|apply quiet_tok; auto].
    apply (oo_obs s _ p nm (Obs last u (OCopied h bs) bs) f); auto; [intros; fin; reflexivity|apply SELF; auto|intros e []|].
    intros l. split; [cbn; lia|]. cbn [o_ph o_last]. rewrite app_nil_r. split; [lia|]. split; [exact R6|]. rewrite H2 by lia. exact R5.
  - (* OEndIn *)
    split; [|apply quiet_tok; auto].
    apply (oo_obs s _ p nm (Obs (h_clock h) u (ODone h) buf) f); auto; [intros; fin; reflexivity|intros; fin; eexists; reflexivity|intros e []|].
    intros l. destruct (O _ _ _ _ H H0) as [K0 K]. cbn in K0. cbn [o_ph o_last] in K. rewrite app_nil_r.
    destruct H1 as [[bs ->]| ->]; [|destruct K]. destruct K as [K1 [K2 [K3 [K4 K5]]]].
    split; [cbn; lia|]. cbn. eauto.
  - (* OEndBuf *)
    split; [|apply quiet_tok; auto].
    apply (oo_obs s _ p nm (Obs (h_clock h) u (OProcess h bs) buf) f); auto; [intros; fin; reflexivity|intros; fin; eexists; reflexivity|intros e []|].
    intros l. destruct (O _ _ _ _ H H0) as [K0 [K1 [K2 K3]]]. cbn in *. rewrite app_nil_r. split; [cbn; lia|]. cbn.
    split; [reflexivity|]. split; [|exact K3]. eapply forall_mono; [|exact K2]. cbn. lia.
  - (* OCallB *)
    destruct (t_obs _ S _ _ _ H) as [f Hf]. destruct (O _ _ _ _ H Hf) as [K0 [K1 [K2 K3]]]. cbn in K0, K1, K2, K3.
    split; [|apply tok_deliver; auto].
    apply (oo_obs s _ p nm (Obs last u (ODone h) buf) f); auto; [intros; fin; reflexivity|apply SELF; auto|intros e [<-|[]]; auto|].
    intros l. split; [exact K0|]. cbn [o_ph o_last]. rewrite seen_self. split; [exact K1|].
    split; [constructor; [lia|eapply forall_mono; [|exact K2]; cbn; lia]|]. exists bs. apply in_or_app. right. left. reflexivity.
  - (* OAckNo *)
    destruct (t_obs _ S _ _ _ H) as [f Hf]. destruct (O _ _ _ _ H Hf) as [K0 [K1 [K2 K3]]]. cbn in K0, K1, K2, K3.
    split; [|apply quiet_tok; auto].
    apply (oo_obs s _ p nm (Obs last u OIdle buf) f); auto; [intros; fin; reflexivity|apply SELF; auto|intros e [<-|[]]; exact Logic.I|].
    intros l. split; [exact K0|]. cbn. rewrite seen_app. cbn. rewrite K1. exact K2.
  - (* OAckYes *)
    destruct (t_obs _ S _ _ _ H) as [f Hf]. destruct (O _ _ _ _ H Hf) as [K0 [K1 [K2 [bs K3]]]]. cbn in K0, K1, K2, K3.
    split.
    + apply (oo_obs s _ p nm (Obs last u OIdle buf) f); auto; [intros; fin; reflexivity|apply SELF; auto|intros e [<-|[<-|[]]]; exact Logic.I|].
      intros l. split; [exact K0|]. cbn. rewrite seen_app. cbn. rewrite K1. exact K2.
    + apply tok_app; [exact T|]. intros a e b E. destruct a as [|y a]; cbn in E.
      * injection E as <- _. rewrite app_nil_r. exists h, bs. auto.
      * injection E as _ E. destruct a as [|y2 a]; cbn in E; [injection E as <- _; exact Logic.I|]. injection E as _ E. destruct a; discriminate.
  - (* OEnd *)
    split; [|apply quiet_tok; auto]. apply (oo_frame s); auto. intros q x o f' Ho Hf. unfold get_obs in Ho. cbn [s_obs] in Ho.
    rewrite aget_adel in Ho. destruct (eqb _ _); [discriminate|]. right. exists f'. split; [exact Ho|]. split; [exact Hf|]. split; [reflexivity|]. auto.
Qed.

Lemma inva_step s s' ev tr : InvA s tr -> Step s s' ev -> InvA s' (tr ++ ev).
Proof.
  intros [S W L C O T] H. destruct (oot_step s s' ev tr S W L C O T H) as [O' T']. constructor; auto.
  - eapply struct_step; eauto.
  - eapply wok_step; eauto.
  - eapply lok_step; eauto.
  - eapply cok_step; eauto.
Qed.

(** ** Runs *)
Lemma aget_seq min n a nm : aget nm (map (fun i => (i, new_file min min [])) (seq a n)) =
  if Nat.leb a nm && Nat.ltb nm (a + n) then Some (new_file min min []) else None.
Proof.
  revert a; induction n as [|n IH]; intros a; cbn [seq map aget].
  - rewrite Nat.add_0_r. destruct (Nat.leb_spec a nm), (Nat.ltb_spec nm a); cbn; auto; lia.
  - destruct (eqb nm a) eqn:E.
    + apply eqb_true in E. subst nm. rewrite Nat.leb_refl. destruct (Nat.ltb_spec a (a + S n)); [reflexivity|lia].
    + apply eqb_false in E. rewrite IH. destruct (Nat.leb_spec (S a) nm), (Nat.leb_spec a nm), (Nat.ltb_spec nm (S a + n)), (Nat.ltb_spec nm (a + S n)); cbn; auto; lia.
Qed.
Lemma nth_some_seq n i nm : nth_error (map Some (seq 0 n)) i = Some (Some nm) -> i = nm /\ nm < n.
Proof.
  intros H. destruct (Nat.lt_ge_cases i n) as [Hl|Hl].
  - rewrite nth_error_map in H. destruct (nth_error (seq 0 n) i) eqn:E; [|discriminate]. cbn in H. injection H as ->.
    apply (nth_error_nth _ _ 0) in E. rewrite seq_nth in E by exact Hl. cbn in E. lia.
  - assert (K : nth_error (map (@Some nat) (seq 0 n)) i = None) by (apply nth_error_None; rewrite map_length, seq_length; exact Hl).
    congruence.
Qed.
Lemma inva_init n min : 0 < n -> InvA (sh_init n min true) [].
Proof.
  intros P. constructor.
  - constructor; cbn; rewrite ?map_length, ?seq_length; auto.
    + intros i nm H. apply nth_some_seq in H. unfold get_file. cbn [s_files sh_init]. exists (new_file min min []). rewrite aget_seq.
      destruct (Nat.ltb_spec nm (0 + n)); [reflexivity|lia].
    + intros i j nm H1 H2. apply nth_some_seq in H1, H2. lia.
    + intros nm f H. unfold get_file in H. cbn [s_files sh_init] in H. rewrite aget_seq in H.
      destruct (Nat.ltb_spec nm (0 + n)); [lia|]. rewrite andb_false_r in H. discriminate.
    + discriminate.
  - exact Logic.I.
  - intros p nm o i f H. discriminate.
  - intros nm f H _. unfold get_file in H. cbn [s_files sh_init] in H. rewrite aget_seq in H.
    destruct (Nat.leb 0 nm && Nat.ltb nm (0 + n)); [|discriminate]. injection H as <-. left. auto.
  - intros p nm o f H. discriminate.
  - intros a e b E. destruct a; discriminate.
Qed.

Lemma run_inv (P : shm -> list event -> Prop) ops s tr :
  (forall s tr, P s tr -> InvA s tr) -> (forall s s' ev tr, P s tr -> Step s s' ev -> P s' (tr ++ ev)) -> P s tr ->
  exists s' ev, sh_run ops s = Some (s', ev) /\ P s' (tr ++ ev).
Proof.
  intros HA HS. revert s tr; induction ops as [|op ops IH]; intros s tr H; cbn.
  - exists s, []. rewrite app_nil_r. auto.
  - destruct (HA _ _ H) as [S _ _ _ _ _].
    assert (D : exists s1 e1, sh_step op s = Some (s1, e1)).
    { destruct (sh_step op s) as [[s1 e1]|] eqn:E; [eauto|]. exfalso. pose proof (t_len _ S) as TL.
      destruct op; cbn [sh_step] in E; repeat (case_in E; try discriminate); try discriminate. lia. }
    destruct D as [s1 [e1 E]]. rewrite E.
    assert (H1 : P s1 (tr ++ e1)).
    { destruct (step_cases op s s1 e1 (t_len _ S) (t_idx _ S) E) as [[-> ->]|K]; [rewrite app_nil_r; exact H|eapply HS; eauto]. }
    destruct (IH _ _ H1) as [s2 [e2 [R K]]]. rewrite R. exists s2, (e1 ++ e2). rewrite app_assoc. auto.
Qed.
Lemma run_inva n min ops : 0 < n -> exists s tr, sh_run ops (sh_init n min true) = Some (s, tr) /\ InvA s tr.
Proof.
  intros P. destruct (run_inv InvA ops (sh_init n min true) [] (fun s tr H => H) (fun s s' ev tr => inva_step s s' ev tr) (inva_init n min P)) as [s [tr H]].
  exists s, tr. exact H.
Qed.

(** ** The ring keeps the last messages *)
Definition syncing (w : wphase) : bool := match w with WSyncing _ _ _ _ _ => true | _ => false end.
Definition kept (s : shm) (n : nat) (nm : nat) (h : hdr) (pay : list Z) (good : bool) (r : nat) : Prop :=
  exists i f, nth_error (s_ring s) i = Some (Some nm) /\ s_idx s = (i + r) mod n /\ get_file s nm = Some f /\ f_hdr f = h
    /\ h_size h = Z.of_nat (length pay) /\ (good = true -> prefix (h_size h) (f_pay f) = pay).
Record InvB (n : nat) (s : shm) (tr : list event) : Prop := {
  b_a : InvA s tr;
  b_n : length (s_ring s) = n;
  b_idx : s_idx s = returns tr mod n;
  b_keep : forall a nm h pay full good b, tr = a ++ EvWritten nm h pay full good :: b ->
     (returns b = 0 -> syncing (s_w s) = true) /\
     (returns b < n \/ (returns b = n /\ s_w s = WIdle) -> kept s n nm h pay good (returns b));
  b_full : n <> 1 -> (match s_w s with WPayloadDone _ full _ _ => full = true | _ => True end) /\
     forall nm h pay full good, In (EvWritten nm h pay full good) tr -> full = true
}.

Lemma returns_app a b : returns (a ++ b) = returns a + returns b.
Proof. unfold returns. rewrite filter_app, app_length. reflexivity. Qed.

(** Steps after which the kept messages are where they were. *)
Lemma keep_old n s s' tr : InvB n s tr -> s_idx s' = s_idx s ->
  (syncing (s_w s) = true -> syncing (s_w s') = true) ->
  (s_w s' = WIdle -> s_w s = WIdle) ->
  (forall i nm, nth_error (s_ring s) i = Some (Some nm) -> (i <> s_idx s \/ syncing (s_w s) = true \/ s_w s' = WIdle) ->
     nth_error (s_ring s') i = Some (Some nm) /\
     forall f, get_file s nm = Some f -> exists f', get_file s' nm = Some f' /\ f_hdr f' = f_hdr f /\ f_pay f' = f_pay f) ->
  forall a nm h pay full good b, tr = a ++ EvWritten nm h pay full good :: b ->
     (returns b = 0 -> syncing (s_w s') = true) /\
     (returns b < n \/ (returns b = n /\ s_w s' = WIdle) -> kept s' n nm h pay good (returns b)).
Proof.
  intros B EI HS HI HR a nm h pay full good b' E.
  destruct (b_keep _ _ _ B _ _ _ _ _ _ _ E) as [K1 K2].
  split; [intros K; apply HS, K1, K|]. intros K.
  assert (K3 : kept s n nm h pay good (returns b')).
  { apply K2. destruct K as [K|[K K0]]; [left; exact K|right; split; [exact K|apply HI; exact K0]]. }
  destruct K3 as [i [f [A1 [A2 [A3 [A4 [A5 A6]]]]]]].
  assert (Li : i < n) by (rewrite <- (b_n _ _ _ B); apply nth_error_Some; congruence).
  assert (C : i <> s_idx s \/ syncing (s_w s) = true \/ s_w s' = WIdle).
  { destruct K as [K|[K K0]]; [|right; right; exact K0]. destruct (Nat.eq_dec (returns b') 0) as [Z0|Z0]; [right; left; auto|left].
    rewrite A2. destruct (Nat.lt_ge_cases (i + returns b') n).
    - rewrite Nat.mod_small by lia. lia.
    - replace (i + returns b') with ((i + returns b' - n) + 1 * n) by lia. rewrite Nat.mod_add by lia. rewrite Nat.mod_small by lia. lia. }
  destruct (HR i nm A1 C) as [B1 B2]. destruct (B2 f A3) as [f' [D1 [D2 D3]]].
  exists i, f'. rewrite EI, D2, D3. auto 10.
Qed.
Lemma keep_frame n s s' tr ev : InvB n s tr -> s_idx s' = s_idx s ->
  (forall e, In e ev -> match e with EvWritten _ _ _ _ _ | EvReturn _ => False | _ => True end) ->
  (syncing (s_w s) = true -> syncing (s_w s') = true) ->
  (s_w s' = WIdle -> s_w s = WIdle) ->
  (forall i nm, nth_error (s_ring s) i = Some (Some nm) -> (i <> s_idx s \/ syncing (s_w s) = true \/ s_w s' = WIdle) ->
     nth_error (s_ring s') i = Some (Some nm) /\
     forall f, get_file s nm = Some f -> exists f', get_file s' nm = Some f' /\ f_hdr f' = f_hdr f /\ f_pay f' = f_pay f) ->
  forall a nm h pay full good b, tr ++ ev = a ++ EvWritten nm h pay full good :: b ->
     (returns b = 0 -> syncing (s_w s') = true) /\
     (returns b < n \/ (returns b = n /\ s_w s' = WIdle) -> kept s' n nm h pay good (returns b)).
Proof.
  intros B EI HE HS HI HR a nm h pay full good b E.
  assert (R0 : returns ev = 0).
  { unfold returns. rewrite filter_none; [reflexivity|]. intros e He. specialize (HE e He). destruct e; tauto || reflexivity. }
  apply cut_app in E. destruct E as [[b' [E ->]]|[a' [_ E]]].
  2: { exfalso. apply (HE (EvWritten nm h pay full good)). rewrite E. apply in_or_app. right. left. reflexivity. }
  rewrite returns_app, R0, Nat.add_0_r. eapply keep_old; eauto.
Qed.

Definition plain (e : event) : bool := match e with EvWritten _ _ _ _ _ | EvReturn _ => false | _ => true end.
Lemma plain_spec ev : forallb plain ev = true -> forall e, In e ev -> match e with EvWritten _ _ _ _ _ | EvReturn _ => False | _ => True end.
Proof. rewrite forallb_forall. intros H e He. specialize (H e He). destruct e; auto; discriminate. Qed.
Lemma plain_returns ev : forallb plain ev = true -> returns ev = 0.
Proof.
  intros H. pose proof (plain_spec ev H) as HE. unfold returns. rewrite filter_none; [reflexivity|]. intros e He. specialize (HE e He). destruct e; tauto || reflexivity.
Qed.
Lemma rec_plain s nm f z ok : forallb plain (rec_events s nm f z ok) = true.
Proof.
  unfold rec_events, recreate; cbn [snd]. destruct ok; [|reflexivity]. cbn. apply forallb_forall. intros e H.
  apply in_map_iff in H. destruct H as [c [<- _]]. reflexivity.
Qed.
Lemma invb_frame n s s' tr ev : InvB n s tr -> InvA s' (tr ++ ev) -> s_idx s' = s_idx s -> forallb plain ev = true ->
  length (s_ring s') = length (s_ring s) ->
  (syncing (s_w s) = true -> syncing (s_w s') = true) ->
  (s_w s' = WIdle -> s_w s = WIdle) ->
  (n <> 1 -> match s_w s' with WPayloadDone _ full _ _ => full = true | _ => True end) ->
  (forall i nm, nth_error (s_ring s) i = Some (Some nm) -> (i <> s_idx s \/ syncing (s_w s) = true \/ s_w s' = WIdle) ->
     nth_error (s_ring s') i = Some (Some nm) /\
     forall f, get_file s nm = Some f -> exists f', get_file s' nm = Some f' /\ f_hdr f' = f_hdr f /\ f_pay f' = f_pay f) ->
  InvB n s' (tr ++ ev).
Proof.
  intros B A EI P ER HS HI HF HR. constructor.
  - exact A.
  - rewrite ER. apply B.
  - rewrite EI, returns_app, (plain_returns ev P), Nat.add_0_r. apply B.
  - eapply keep_frame; eauto. apply plain_spec; exact P.
  - intros N. split; [apply HF; exact N|]. intros nm h pay full good H. apply in_app_or in H. destruct H as [H|H].
    + eapply (b_full _ _ _ B N); eauto.
    + destruct (plain_spec ev P _ H).
Qed.

Lemma invb_written n s s' tr nm m full good f rest : InvB n s tr -> InvA s' (tr ++ EvWritten nm (hdr_of m) (m_pay m) full good :: rest) ->
  s_w s = WPayloadDone m full good true -> slot_name s = Some nm -> get_file s nm = Some f ->
  (forall e, In e rest -> match e with EvWritten _ _ _ _ _ | EvReturn _ => False | _ => True end) ->
  s_idx s' = s_idx s -> s_ring s' = s_ring s -> syncing (s_w s') = true ->
  (forall x g, get_file s x = Some g -> exists f', get_file s' x = Some f' /\ f_hdr f' = f_hdr g /\ f_pay f' = f_pay g) ->
  InvB n s' (tr ++ EvWritten nm (hdr_of m) (m_pay m) full good :: rest).
Proof.
  intros B A' E1 E2 E3 HE EI ER ES EF.
  assert (R0 : returns rest = 0).
  { unfold returns. rewrite filter_none; [reflexivity|]. intros e He. specialize (HE e He). destruct e; tauto || reflexivity. }
  assert (R1 : returns (EvWritten nm (hdr_of m) (m_pay m) full good :: rest) = 0) by exact R0.
  constructor.
  - exact A'.
  - rewrite ER. apply B.
  - rewrite EI, returns_app, R1, Nat.add_0_r. apply B.
  - intros a x h pay fl gd b E. apply cut_app in E. destruct E as [[b' [E ->]]|[a' [_ E]]].
    + rewrite returns_app, R1, Nat.add_0_r. eapply (keep_old n s s' tr); eauto.
      * intros K. rewrite K in ES. discriminate.
      * intros i y R _. rewrite ER. split; [exact R|]. apply EF.
    + destruct a' as [|y a'].
      * cbn in E. injection E as <- <- <- <- <- <-. split; [auto|]. intros _. rewrite R0.
        pose proof (a_w _ _ (b_a _ _ _ B)) as W. unfold WOk in W. rewrite E1 in W.
        destruct W as [y [k [W1 [W2 [_ [_ [W3 [W4 [W5 W6]]]]]]]]]. rewrite E2 in W1. injection W1 as <-. rewrite E3 in W2. injection W2 as <-.
        destruct (EF _ _ E3) as [f' [F1 [F2 F3]]]. exists (s_idx s), f'. rewrite ER, EI, F2, F3.
        split; [apply slot_ring; exact E2|]. split; [rewrite Nat.add_0_r, Nat.mod_small; [reflexivity|rewrite <- (b_n _ _ _ B); apply (t_idx _ (a_s _ _ (b_a _ _ _ B)))]|].
        split; [exact F1|]. split; [exact W3|]. split; [reflexivity|exact W6].
      * cbn in E. injection E as _ E. exfalso. apply (HE (EvWritten x h pay fl gd)). rewrite E. apply in_or_app. right. left. reflexivity.
  - intros N. destruct (b_full _ _ _ B N) as [F1 F2]. rewrite E1 in F1. split; [destruct (s_w s'); auto; discriminate|].
    intros x h pay fl gd K. apply in_app_or in K. destruct K as [K|[K|K]].
    + eapply F2; eauto.
    + congruence.
    + destruct (HE _ K).
Qed.

Ltac sg := try solve [ auto | discriminate | intros; exact Logic.I | intros; reflexivity
  | (match goal with K : s_w _ = _ |- _ => rewrite K end; cbn; solve [discriminate|auto]) ].

Lemma invb_step n s s' ev tr : InvB n s tr -> Step s s' ev -> InvB n s' (tr ++ ev).
Proof.
  intros B H. pose proof (b_a _ _ _ B) as A. pose proof (inva_step _ _ _ _ A H) as A'. pose proof (a_s _ _ A) as S. pose proof (a_w _ _ A) as W.
  assert (NS : forall nm i x, slot_name s = Some nm -> nth_error (s_ring s) i = Some (Some x) -> i <> s_idx s -> x <> nm).
  { intros nm i x Sn R N ->. apply N. eapply (t_inj _ S); [exact R|apply slot_ring; exact Sn]. }
  assert (SIMPLE : forall s1, InvA s1 (tr ++ ev) -> s_idx s1 = s_idx s -> forallb plain ev = true -> s_ring s1 = s_ring s ->
     (syncing (s_w s) = true -> syncing (s_w s1) = true) -> (s_w s1 = WIdle -> s_w s = WIdle) ->
     (n <> 1 -> match s_w s1 with WPayloadDone _ full _ _ => full = true | _ => True end) ->
     (forall nm f, get_file s nm = Some f -> exists f', get_file s1 nm = Some f' /\ f_hdr f' = f_hdr f /\ f_pay f' = f_pay f) ->
     InvB n s1 (tr ++ ev)).
  { intros s1 A1 E1 P E2 E3 E4 E5 E6. apply (invb_frame n s); auto; [rewrite E2; reflexivity|].
    intros i nm R _. rewrite E2. split; [exact R|]. apply E6. }
  assert (FULL : n <> 1 -> match s_w s with WPayloadDone _ full _ _ => full = true | _ => True end) by (intros N; apply (b_full _ _ _ B N)).
  assert (SAMEF : forall nm f, get_file s nm = Some f -> exists f', get_file s nm = Some f' /\ f_hdr f' = f_hdr f /\ f_pay f' = f_pay f) by eauto.
  assert (UPD : forall x g k, get_file s x = Some g -> f_hdr k = f_hdr g -> f_pay k = f_pay g ->
     forall nm f, get_file s nm = Some f -> exists f', (if eqb nm x then Some k else get_file s nm) = Some f' /\ f_hdr f' = f_hdr f /\ f_pay f' = f_pay f).
  { intros x g k G H1 H2 nm f G2. destruct (eqb nm x) eqn:Q; [|eauto]. apply eqb_true in Q. subst nm. exists k. split; [reflexivity|].
    rewrite G in G2. injection G2 as <-. auto. }
  destruct H; try (apply SIMPLE; auto; sg; fail).
  - (* PrepRec *)
    apply (invb_frame n s); auto; sg; [apply rec_plain|rewrite ring_rec, set_nth_length; reflexivity|].
    rewrite H. cbn [syncing]. intros i x R C. destruct C as [C|[C|C]]; try discriminate.
    rewrite ring_rec, nth_set_nth. change (s_idx (upd_w s (WPrepared m))) with (s_idx s). destruct (Nat.eqb_spec i (s_idx s)); [congruence|].
    split; [exact R|]. intros g G. rewrite gf_rec. pose proof (t_fresh _ S _ _ G).
    rewrite (neq_eqb x (s_next (upd_w s (WPrepared m)))) by (cbn; lia). rewrite andb_false_r. rewrite neq_eqb by (eapply NS; eauto). eauto.
  - apply SIMPLE; auto; sg. intros x g. fin. eapply UPD; eauto.
  - (* LockFail *)
    apply (invb_frame n s); auto; sg; [cbn; rewrite set_nth_length; reflexivity|].
    rewrite H. cbn [syncing]. intros i x R C. destruct C as [C|[C|C]]; try discriminate.
    change (s_ring (upd_w (rec_state s nm f (f_cap f) false) WFailed)) with (s_ring (rec_state s nm f (f_cap f) false)).
    rewrite ring_rec, nth_set_nth. destruct (Nat.eqb_spec i (s_idx s)); [congruence|].
    split; [exact R|]. intros g G. rewrite gf_w, gf_rec. cbn [andb]. rewrite neq_eqb by (eapply NS; eauto). eauto.
  - (* LockRec *)
    apply (invb_frame n s); auto; sg.
    + rewrite forallb_app, rec_plain. reflexivity.
    + cbn. rewrite set_nth_length. reflexivity.
    + rewrite H. cbn [syncing]. intros i x R C. destruct C as [C|[C|C]]; try discriminate.
      change (s_ring (upd_w (upd_file (rec_state s nm f (f_cap f) true) (s_next s) (set_lock (Some Pub) (fresh_file s f (f_cap f)))) (WLocked m)))
        with (s_ring (rec_state s nm f (f_cap f) true)).
      rewrite ring_rec, nth_set_nth. destruct (Nat.eqb_spec i (s_idx s)); [congruence|].
      split; [exact R|]. intros g G. rewrite gf_w, gf_file, gf_rec. pose proof (t_fresh _ S _ _ G).
      rewrite (neq_eqb x (s_next s)) by lia. cbn [andb]. rewrite neq_eqb by (eapply NS; eauto). eauto.
  - (* Header *)
    apply (invb_frame n s); auto; sg.
    rewrite H. cbn [syncing]. intros i x R C. destruct C as [C|[C|C]]; try discriminate. split; [exact R|]. intros g G. fin.
    rewrite neq_eqb by (eapply NS; eauto). eauto.
  - (* Pay *)
    apply (invb_frame n s); auto; sg.
    + intros N. cbn [s_w upd_w]. pose proof (b_n _ _ _ B) as BN. destruct (Nat.eqb_spec (length (s_ring s)) 1); [congruence|]. apply orb_true_r.
    + rewrite H. cbn [syncing]. intros i x R C. destruct C as [C|[C|C]]; try discriminate. split; [exact R|]. intros g G. fin.
      rewrite neq_eqb by (eapply NS; eauto). eauto.
  - (* Rel *)
    apply (invb_written n s _ tr nm m full good f [EvSync nm (s_now s) (map fst (filter (fun c => negb (snd c)) (f_conn f)))] B A'); auto;
      [intros e [<-|[]]; exact Logic.I|]. intros x g G. fin. eapply UPD; eauto.
  - (* RelNoAck *)
    apply (invb_written n s _ tr nm m full good f [] B A'); auto; [intros e []|]. intros x g G. fin. eapply UPD; eauto.
  - apply SIMPLE; auto; sg. intros x g. fin. eapply UPD; eauto.
  - apply SIMPLE; auto; sg. intros x g. fin. eapply UPD; eauto.
  - (* Ret *)
    assert (NP : match s_w s with WPayloadDone _ _ _ _ | WIdle => False | _ => True end) by (destruct H as [[m [t [-> _]]]|[-> _]]; exact Logic.I).
    constructor; [exact A'|apply B| | |].
    + change (s_idx (fst (finish s b))) with (Nat.modulo (1 + s_idx s) (length (s_ring s))). rewrite returns_app.
      change (returns [EvReturn b]) with 1. rewrite (b_n _ _ _ B), (b_idx _ _ _ B), Nat.add_mod_idemp_r; [f_equal; lia|].
      pose proof (t_len _ S) as TL. rewrite (b_n _ _ _ B) in TL. lia.
    + intros a nm h pay full good b' E. apply cut_app in E. destruct E as [[b0 [E ->]]|[a' [_ E]]].
      2: { destruct a' as [|y a']; [discriminate|]. cbn in E. injection E as _ E. destruct a'; discriminate. }
      rewrite returns_app. cbn [returns filter is_return length]. change (returns [EvReturn b]) with 1. split; [lia|]. intros K.
      destruct (b_keep _ _ _ B _ _ _ _ _ _ _ E) as [K1 K2]. destruct K2 as [i [f [A1 [A2 [A3 A4]]]]]; [left; destruct K as [K|[K _]]; lia|].
      exists i, f. split; [exact A1|]. split; [|auto].
      change (s_idx (fst (finish s b))) with (Nat.modulo (1 + s_idx s) (length (s_ring s))).
      rewrite (b_n _ _ _ B), A2, Nat.add_mod_idemp_r; [f_equal; lia|].
      pose proof (t_len _ S) as TL. rewrite (b_n _ _ _ B) in TL. lia.
    + intros N. split; [exact Logic.I|]. intros nm h pay full good K. apply in_app_or in K.
      destruct K as [K|[K|[]]]; [eapply (b_full _ _ _ B N); eauto|discriminate].
  - (* Conn *)
    apply SIMPLE; auto; sg. intros x g. fin. eapply UPD; eauto.
  - apply SIMPLE; auto; sg. intros x g. fin. eapply UPD; eauto.
  - apply SIMPLE; auto; sg. intros x g. fin. eapply UPD; eauto.
  - apply SIMPLE; auto; sg. intros x g. fin. eapply UPD; eauto.
  - apply SIMPLE; auto; sg. intros x g. fin. eapply UPD; eauto.
Qed.

Lemma invb_init n min : 0 < n -> InvB n (sh_init n min true) [].
Proof.
  intros P. constructor.
  - apply inva_init; exact P.
  - cbn. rewrite map_length, seq_length. reflexivity.
  - cbn. rewrite Nat.mod_small by exact P. reflexivity.
  - intros a nm h pay full good b E. destruct a; discriminate.
  - intros N. split; [exact Logic.I|intros nm h pay full good []].
Qed.
Lemma run_invb n min ops : 0 < n -> exists s tr, sh_run ops (sh_init n min true) = Some (s, tr) /\ InvB n s tr.
Proof.
  intros P. destruct (run_inv (InvB n) ops (sh_init n min true) [] (fun s tr H => b_a _ _ _ H) (fun s s' ev tr => invb_step n s s' ev tr) (invb_init n min P)) as [s [tr H]].
  exists s, tr. exact H.
Qed.

(** ** Acknowledgements *)
(** An acknowledgement of the process is pending. *)
Definition pend_step (p nm : nat) (a : bool) (e : event) : bool :=
  match e with
  | EvAck q n _ => if Nat.eqb q p && Nat.eqb n nm then true else a
  | EvAte n q | EvAcked n q => if Nat.eqb q p && Nat.eqb n nm then false else a
  | _ => a
  end.
Definition pend (p nm : nat) (tr : list event) : bool := fold_left (pend_step p nm) tr false.
Lemma pend_app p nm a b : pend p nm (a ++ b) = fold_left (pend_step p nm) b (pend p nm a).
Proof. unfold pend. apply fold_left_app. Qed.
Lemma pend_true p nm y a : fold_left (pend_step p nm) y a = true -> a = true \/ exists c, In (EvAck p nm c) y.
Proof.
  revert a; induction y as [|e y IH]; intros a H; cbn in H; [left; exact H|].
  destruct (IH _ H) as [K|[c K]]; [|right; exists c; right; exact K].
  destruct e; cbn in K; auto.
  - destruct (Nat.eqb pid p && Nat.eqb nm0 nm); [discriminate|auto].
  - destruct (Nat.eqb pid p && Nat.eqb nm0 nm); [discriminate|auto].
  - destruct (Nat.eqb_spec pid p), (Nat.eqb_spec nm0 nm); cbn in K; auto. subst. right. exists clock. left. reflexivity.
Qed.
Lemma pend_after p nm x y : pend p nm (x ++ EvAte nm p :: y) = true -> exists c, In (EvAck p nm c) y.
Proof.
  rewrite pend_app. cbn [fold_left pend_step]. rewrite !Nat.eqb_refl. cbn. intros H.
  destruct (pend_true _ _ _ _ H) as [K|K]; [discriminate|exact K].
Qed.

Definition served (nm p : nat) (t0 T : Z) (b : list event) : Prop :=
  (exists c, In (EvAck p nm c) b) \/ (exists t, In (EvTimedOut nm p t) b /\ (t0 + T <= t)%Z).
Lemma served_mono nm p t0 T b ev : served nm p t0 T b -> served nm p t0 T (b ++ ev).
Proof.
  intros [[c H]|[t [H K]]]; [left; exists c|right; exists t; split; [|exact K]]; apply in_or_app; auto.
Qed.

Record InvC (s : shm) (tr : list event) : Prop := {
  c_a : InvA s tr;
  c_val : forall nm p, valid nm p tr = true -> nm < s_next s;
  c_conn : forall i nm f, nth_error (s_ring s) i = Some (Some nm) -> get_file s nm = Some f ->
     NoDup (keys (f_conn f)) /\ forall p, valid nm p tr = true <-> In (p, false) (f_conn f);
  c_new : forall p nm, s_next s <= nm -> flag (s_ack s) p nm = false;
  c_ack : forall i nm p, nth_error (s_ring s) i = Some (Some nm) -> flag (s_ack s) p nm = true -> pend p nm tr = true;
  c_sync : forall a nm t0 waited b, tr = a ++ EvSync nm t0 waited :: b ->
     (forall p, In p waited <-> valid nm p a = true) /\
     exists h pay full good a', a = a' ++ [EvWritten nm h pay full good] /\ (0 < h_ack h)%Z /\
       (returns b = 0 -> exists m eat set wait t f, s_w s = WSyncing m eat set wait t /\ slot_name s = Some nm /\ get_file s nm = Some f /\
           h_ack h = m_ack m /\ (t0 <= t <= s_now s)%Z /\ NoDup wait /\
           (forall p, In p waited -> In p eat \/ In (EvAte nm p) b) /\
           (forall p, In p waited -> (In p wait /\ In (p, false) (f_conn f)) \/ served nm p t0 (h_ack h) b)) /\
       (forall b1 ok b2, b = b1 ++ EvReturn ok :: b2 -> returns b1 = 0 -> forall p, In p waited -> served nm p t0 (h_ack h) b1)
}.

(** Events without influence on who is waited for. *)
Definition calm (e : event) : bool := match e with EvConnect _ _ | EvTimedOut _ _ _ | EvSync _ _ _ | EvReturn _ => false | _ => true end.
Lemma calm_valid nm p ev a : forallb calm ev = true -> fold_left (valid_step nm p) ev a = a.
Proof.
  revert a; induction ev as [|e ev IH]; intros a H; [reflexivity|]. cbn in H. apply andb_true_iff in H. destruct H as [H1 H2].
  cbn. rewrite IH by exact H2. destruct e; try reflexivity; discriminate.
Qed.
Lemma valid_app nm p a b : valid nm p (a ++ b) = fold_left (valid_step nm p) b (valid nm p a).
Proof. unfold valid. apply fold_left_app. Qed.
Definition hush (e : event) : bool := match e with EvSync _ _ _ | EvReturn _ => false | _ => true end.
Lemma hush_returns ev : forallb hush ev = true -> returns ev = 0.
Proof.
  rewrite forallb_forall. intros H. unfold returns. rewrite filter_none; [reflexivity|]. intros e He. specialize (H e He). destruct e; auto; discriminate.
Qed.
Lemma hush_not ev nm t0 w a b : forallb hush ev = true -> ev = a ++ EvSync nm t0 w :: b -> False.
Proof. rewrite forallb_forall. intros H E. specialize (H (EvSync nm t0 w)). rewrite E in H. discriminate H. apply in_or_app. right. left. reflexivity. Qed.
Lemma hush_ret ev ok a b : forallb hush ev = true -> ev = a ++ EvReturn ok :: b -> False.
Proof. rewrite forallb_forall. intros H E. specialize (H (EvReturn ok)). rewrite E in H. discriminate H. apply in_or_app. right. left. reflexivity. Qed.
Lemma calm_hush ev : forallb calm ev = true -> forallb hush ev = true.
Proof. rewrite !forallb_forall. intros H e He. specialize (H e He). destruct e; auto. Qed.

(** What a step has to show about the process that is being waited for. *)
Lemma sync_frame s s' tr ev : InvC s tr -> forallb hush ev = true ->
  (forall m eat set wait t nm f b, s_w s = WSyncing m eat set wait t -> slot_name s = Some nm -> get_file s nm = Some f ->
     (t <= s_now s)%Z -> NoDup wait -> (exists a, tr = a ++ b) ->
     exists eat' set' wait' t' f', s_w s' = WSyncing m eat' set' wait' t' /\ slot_name s' = Some nm /\ get_file s' nm = Some f' /\
       (t <= t' <= s_now s')%Z /\ NoDup wait' /\
       (forall p, In p eat -> In p eat' \/ In (EvAte nm p) ev) /\
       (forall p, In p wait -> In (p, false) (f_conn f) -> (In p eat \/ In (EvAte nm p) b) ->
          (In p wait' /\ In (p, false) (f_conn f')) \/ forall t0, (t0 <= t)%Z -> served nm p t0 (m_ack m) (b ++ ev))) ->
  forall a nm t0 waited b, tr ++ ev = a ++ EvSync nm t0 waited :: b ->
     (forall p, In p waited <-> valid nm p a = true) /\
     exists h pay full good a', a = a' ++ [EvWritten nm h pay full good] /\ (0 < h_ack h)%Z /\
       (returns b = 0 -> exists m eat set wait t f, s_w s' = WSyncing m eat set wait t /\ slot_name s' = Some nm /\ get_file s' nm = Some f /\
           h_ack h = m_ack m /\ (t0 <= t <= s_now s')%Z /\ NoDup wait /\
           (forall p, In p waited -> In p eat \/ In (EvAte nm p) b) /\
           (forall p, In p waited -> (In p wait /\ In (p, false) (f_conn f)) \/ served nm p t0 (h_ack h) b)) /\
       (forall b1 ok b2, b = b1 ++ EvReturn ok :: b2 -> returns b1 = 0 -> forall p, In p waited -> served nm p t0 (h_ack h) b1).
Proof.
  intros C HH HF a nm t0 waited b E. apply cut_app in E. destruct E as [[b' [E ->]]|[a' [_ E]]]; [|destruct (hush_not _ _ _ _ _ _ HH E)].
  destruct (c_sync _ _ C _ _ _ _ _ E) as [K1 [h [pay [full [good [a1 [K2 [K3 [K4 K5]]]]]]]]]. split; [exact K1|].
  exists h, pay, full, good, a1. split; [exact K2|]. split; [exact K3|]. split.
  - rewrite returns_app, (hush_returns ev HH), Nat.add_0_r. intros R. destruct (K4 R) as [m [eat [st [wt [t [f [L1 [L2 [L3 [L4 [L5 [L6 [L7 L8]]]]]]]]]]]]].
    destruct (HF m eat st wt t nm f b' L1 L2 L3) as [eat' [st' [wt' [t' [f' [M1 [M2 [M3 [M4 [M5 [M6 M7]]]]]]]]]]]; [lia|exact L6| |].
    { exists (a ++ [EvSync nm t0 waited]). rewrite E, <- app_assoc. reflexivity. }
    exists m, eat', st', wt', t', f'. split; [exact M1|]. split; [exact M2|]. split; [exact M3|]. split; [exact L4|]. split; [lia|]. split; [exact M5|]. split.
    + intros p Hp. destruct (L7 p Hp) as [Q|Q]; [|right; apply in_or_app; auto]. destruct (M6 p Q) as [Q2|Q2]; [auto|right; apply in_or_app; auto].
    + intros p Hp. destruct (L8 p Hp) as [[Q1 Q2]|Q]; [|right; apply served_mono; exact Q].
      destruct (M7 p Q1 Q2 (L7 p Hp)) as [Q|Q]; [left; exact Q|right; rewrite L4; apply Q; lia].
  - intros b1 ok b2 Eb R p Hp. apply cut_app in Eb. destruct Eb as [[b3 [Eb _]]|[a' [_ Eb]]]; [eapply K5; eauto|destruct (hush_ret _ _ _ _ HH Eb)].
Qed.

Lemma flag_aset l p nm b q x : flag (aset (p, nm) b l) q x = if eqb (q, x) (p, nm) then b else flag l q x.
Proof. unfold flag. rewrite aget_aset. destruct (eqb (q, x) (p, nm)); reflexivity. Qed.
Lemma flag_fold (conn : list (nat * bool)) nm l q x : x <> nm ->
  flag (fold_left (fun a c => aset (fst c, nm) true a) conn l) q x = flag l q x.
Proof.
  intros N. revert l; induction conn as [|c conn IH]; intros l; [reflexivity|]. cbn. rewrite IH, flag_aset.
  rewrite neq_eqb; [reflexivity|congruence].
Qed.
Lemma valid_true nm p ev a : fold_left (valid_step nm p) ev a = true -> a = true \/ In (EvConnect nm p) ev.
Proof.
  revert a; induction ev as [|e ev IH]; intros a H; cbn in H; [auto|]. destruct (IH _ H) as [K|K]; [|right; right; exact K].
  destruct e; cbn in K; auto.
  - destruct (Nat.eqb_spec nm0 nm), (Nat.eqb_spec pid p); cbn in K; auto. subst. right. left. reflexivity.
  - destruct (Nat.eqb nm0 nm && Nat.eqb pid p); [discriminate|auto].
Qed.
Lemma valid_other nm p ev a : (forall e, In e ev -> match e with EvConnect n q | EvTimedOut n q _ => (n, q) <> (nm, p) | _ => True end) ->
  fold_left (valid_step nm p) ev a = a.
Proof.
  revert a; induction ev as [|e ev IH]; intros a H; [reflexivity|]. cbn. rewrite IH by (intros e' He; apply H; right; exact He).
  specialize (H e (or_introl eq_refl)). destruct e; cbn; try reflexivity.
  - destruct (Nat.eqb_spec nm0 nm), (Nat.eqb_spec pid p); cbn; congruence.
  - destruct (Nat.eqb_spec nm0 nm), (Nat.eqb_spec pid p); cbn; congruence.
Qed.
Lemma valid_connects nm p (conn : list (nat * bool)) a :
  fold_left (valid_step nm p) (map (fun c => EvConnect nm (fst c)) conn) a = a || existsb (fun c => Nat.eqb (fst c) p) conn.
Proof.
  revert a; induction conn as [|c conn IH]; intros a; cbn; [rewrite orb_false_r; reflexivity|].
  rewrite IH, Nat.eqb_refl. cbn. destruct (Nat.eqb (fst c) p); cbn; [rewrite orb_true_r; reflexivity|reflexivity].
Qed.

(** The connections of the files of the ring. *)
Definition ConnOk (s : shm) (tr : list event) : Prop :=
  forall i nm f, nth_error (s_ring s) i = Some (Some nm) -> get_file s nm = Some f ->
     NoDup (keys (f_conn f)) /\ forall p, valid nm p tr = true <-> In (p, false) (f_conn f).
Lemma conn_frame s s' tr ev : ConnOk s tr -> s_ring s' = s_ring s -> forallb calm ev = true ->
  (forall nm f', get_file s' nm = Some f' -> exists f, get_file s nm = Some f /\ f_conn f' = f_conn f) -> ConnOk s' (tr ++ ev).
Proof.
  intros C ER HC HF i nm f' R G. rewrite ER in R. destruct (HF _ _ G) as [f [G2 ->]]. destruct (C i nm f R G2) as [C1 C2].
  split; [exact C1|]. intros p. rewrite valid_app, calm_valid by exact HC. apply C2.
Qed.
Lemma conn_file s nm f g w tr ev : ConnOk s tr -> forallb calm ev = true -> get_file s nm = Some f -> f_conn g = f_conn f ->
  ConnOk (upd_w (upd_file s nm g) w) (tr ++ ev).
Proof.
  intros C HC G E. apply (conn_frame s); auto. intros x f' H. fin. destruct (eqb x nm) eqn:Q; [|eauto].
  apply eqb_true in Q. subst x. injection H as <-. eauto.
Qed.
Lemma conn_rec s nm f z ok w tr : Struct s -> ConnOk s tr -> (forall n p, valid n p tr = true -> n < s_next s) ->
  slot_name s = Some nm -> get_file s nm = Some f -> ConnOk (upd_w (rec_state s nm f z ok) w) (tr ++ rec_events s nm f z ok).
Proof.
  intros S C V Sn G i x f' R H. change (s_ring (upd_w (rec_state s nm f z ok) w)) with (s_ring (rec_state s nm f z ok)) in R.
  rewrite ring_rec, nth_set_nth in R. rewrite gf_w, gf_rec in H. destruct (C _ _ _ (slot_ring _ _ Sn) G) as [C1 C2].
  destruct (Nat.eqb_spec i (s_idx s)) as [->|Ni].
  - destruct (Nat.ltb _ _); [|discriminate]. destruct ok; [|discriminate]. injection R as <-. rewrite eqb_refl in H. cbn [andb] in H.
    injection H as <-. cbn [f_conn fresh_file new_file]. split.
    + unfold keys. rewrite map_map. cbn. exact C1.
    + intros p. rewrite valid_app. unfold rec_events, recreate. cbn [snd fold_left valid_step]. rewrite valid_connects.
      destruct (valid (s_next s) p tr) eqn:Q; [apply V in Q; lia|]. cbn [orb]. rewrite existsb_exists. split.
      * intros [c [Hc Hp]]. apply Nat.eqb_eq in Hp. apply in_map_iff. exists c. split; [rewrite Hp; reflexivity|exact Hc].
      * intros Hp. apply in_map_iff in Hp. destruct Hp as [c [Hp Hc]]. exists c. split; [exact Hc|]. injection Hp as ->. apply Nat.eqb_refl.
  - destruct (t_live _ S _ _ R) as [g Hg]. pose proof (t_fresh _ S _ _ Hg) as Lx. rewrite (neq_eqb x (s_next s)) in H by lia.
    rewrite andb_false_r in H. rewrite neq_eqb in H.
    + destruct (C i x f' R H) as [D1 D2]. split; [exact D1|]. intros p. rewrite valid_app, valid_other; [apply D2|].
      intros e He. unfold rec_events, recreate in He. cbn [snd] in He. destruct ok; [|destruct He]. destruct He as [<-|He]; [exact I|].
      apply in_map_iff in He. destruct He as [c [<- _]]. intros [= K _]. lia.
    + intros ->. apply Ni. eapply (t_inj _ S); [exact R|apply slot_ring; exact Sn].
Qed.

Lemma keys_timeout p (conn : list (nat * bool)) : keys (map (fun c => if Nat.eqb (fst c) p then (fst c, true) else c) conn) = keys conn.
Proof. unfold keys. rewrite map_map. apply map_ext. intros c. destruct (Nat.eqb (fst c) p); reflexivity. Qed.
Lemma in_timeout p q (conn : list (nat * bool)) :
  In (q, false) (map (fun c => if Nat.eqb (fst c) p then (fst c, true) else c) conn) <-> In (q, false) conn /\ q <> p.
Proof.
  rewrite in_map_iff. split.
  - intros [[a b] [E H]]. cbn in E. destruct (Nat.eqb_spec a p); [discriminate|]. injection E as -> ->. auto.
  - intros [H N]. exists (q, false). cbn. destruct (Nat.eqb_spec q p); [contradiction|auto].
Qed.
Lemma in_aset_pair (p q : nat) (a b : bool) (l : list (nat * bool)) : NoDup (keys l) -> In (q, b) (aset p a l) <-> (q = p /\ b = a) \/ (q <> p /\ In (q, b) l).
Proof.
  intros N. pose proof (nodup_aset p a l N) as N'. split.
  - intros H. apply in_aget in H; [|exact N']. rewrite aget_aset in H. destruct (eqb q p) eqn:Q.
    + apply eqb_true in Q. injection H as ->. auto.
    + apply eqb_false in Q. right. split; [exact Q|apply aget_in; exact H].
  - intros H. apply aget_in. rewrite aget_aset. destruct H as [[-> ->]|[H1 H2]]; [rewrite eqb_refl; reflexivity|].
    rewrite neq_eqb by exact H1. apply in_aget; auto.
Qed.

Lemma conn_step s s' ev tr : Struct s -> ConnOk s tr -> (forall n p, valid n p tr = true -> n < s_next s) -> Step s s' ev -> ConnOk s' (tr ++ ev).
Proof.
  intros S C V H.
  assert (SAME : forall s1, s_ring s1 = s_ring s -> forallb calm ev = true -> (forall x, get_file s1 x = get_file s x) -> ConnOk s1 (tr ++ ev)).
  { intros s1 E1 E2 E3. apply (conn_frame s); auto. intros x f' G. rewrite E3 in G. eauto. }
  destruct H; try (apply SAME; auto; fail).
  - apply (conn_rec (upd_w s (WPrepared m)) nm f size ok (WPrepared m)); auto. apply struct_w; exact S.
  - apply (conn_file s nm f); auto.
  - apply (conn_rec s nm f (f_cap f) false WFailed); auto.
  - pose proof (conn_rec s nm f (f_cap f) true (s_w s) tr S C V H0 H1) as CR. rewrite app_assoc.
    eapply (conn_file _ (s_next s) (fresh_file s f (f_cap f))); [exact CR|reflexivity| |reflexivity]. apply rec_file_new.
  - apply (conn_file s nm f); auto.
  - apply (conn_file s nm f); auto.
  - (* Rel *) 
    intros i x g R G. assert (K : ConnOk (upd_w (upd_file s nm (set_lock None f)) WIdle) (tr ++ [])) by (apply (conn_file s nm f); auto).
    rewrite app_nil_r in K. destruct (K i x g R G) as [K1 K2]. split; [exact K1|]. intros p. rewrite valid_app. cbn. apply K2.
  - apply (conn_file s nm f); auto.
  - apply (conn_file s nm f); auto.
  - (* AckTO *)
    intros i x g R G. fin. change (nth_error (s_ring s) i = Some (Some x)) in R. destruct (eqb x nm) eqn:Q.
    + apply eqb_true in Q. subst x. injection G as <-. destruct (C _ _ _ R H1) as [C1 C2]. cbn [set_conn f_conn]. split.
      * rewrite keys_timeout. exact C1.
      * intros q. rewrite in_timeout, valid_app. cbn. rewrite Nat.eqb_refl. cbn. rewrite <- C2.
        destruct (Nat.eqb_spec p q); [split; [discriminate|intros [_ K]; congruence]|]. intuition congruence.
    + apply eqb_false in Q. destruct (C _ _ _ R G) as [C1 C2]. split; [exact C1|]. intros q. rewrite valid_app, valid_other; [apply C2|].
      intros e [<-|[]]. congruence.
  - (* Ret *)
    intros i x g R G. destruct (C i x g R G) as [C1 C2]. split; [exact C1|]. intros q. rewrite valid_app. cbn. apply C2.
  - (* Conn *)
    intros i x g R G. fin. change (nth_error (s_ring s) i = Some (Some x)) in R. destruct (eqb x nm) eqn:Q.
    + apply eqb_true in Q. subst x. injection G as <-. destruct (C _ _ _ R H0) as [C1 C2]. cbn [set_conn f_conn]. split.
      * apply nodup_aset. exact C1.
      * intros q. rewrite in_aset_pair by exact C1. rewrite valid_app. cbn. rewrite Nat.eqb_refl. cbn. rewrite <- C2.
        destruct (Nat.eqb_spec p q); [subst; split; auto|]. split; [right; split; [congruence|auto]|intros [[K _]|[_ K]]; congruence].
    + apply eqb_false in Q. destruct (C _ _ _ R G) as [C1 C2]. split; [exact C1|]. intros q. rewrite valid_app, valid_other; [apply C2|].
      intros e [<-|[]]. congruence.
  - apply (conn_frame s); auto. intros x f' G. fin. destruct (eqb x nm) eqn:Q; [|eauto]. apply eqb_true in Q. subst x. injection G as <-. eauto.
  - apply (conn_frame s); auto. intros x f' G. fin. destruct (eqb x nm) eqn:Q; [|eauto]. apply eqb_true in Q. subst x. injection G as <-. eauto.
  - apply (conn_frame s); auto. intros x f' G. fin. destruct (eqb x nm) eqn:Q; [|eauto]. apply eqb_true in Q. subst x. injection G as <-. eauto.
  - apply (conn_frame s); auto. intros x f' G. fin. destruct (eqb x nm) eqn:Q; [|eauto]. apply eqb_true in Q. subst x. injection G as <-. eauto.
Qed.

Lemma val_step s s' ev tr : Struct s -> (forall n p, valid n p tr = true -> n < s_next s) -> Step s s' ev ->
  forall n p, valid n p (tr ++ ev) = true -> n < s_next s'.
Proof.
  intros S V H n p K. rewrite valid_app in K. apply valid_true in K.
  assert (M : s_next s <= s_next s') by (destruct H; cbn; lia).
  destruct K as [K|K]; [apply V in K; lia|].
  assert (RE : forall s nm f z ok, In (EvConnect n p) (rec_events s nm f z ok) -> n < s_next (rec_state s nm f z ok)).
  { intros s0 x f z ok Hx. unfold rec_events, recreate in Hx. cbn [snd] in Hx. destruct ok; [|destruct Hx]. destruct Hx as [Hx|Hx]; [discriminate|].
    apply in_map_iff in Hx. destruct Hx as [c [Hc _]]. injection Hc as <- _. cbn. lia. }
  destruct H; try (exfalso; cbn in K; intuition discriminate).
  - apply RE; exact K.
  - apply in_app_or in K. destruct K as [K|[K|[]]]; [|discriminate]. apply (RE s nm f (f_cap f) true); exact K.
  - destruct K as [K|[]]. injection K as <- <-. apply (t_fresh _ S) in H0. exact H0.
Qed.

Definition AckOk (s : shm) (tr : list event) : Prop :=
  (forall p nm, s_next s <= nm -> flag (s_ack s) p nm = false) /\
  (forall i nm p, nth_error (s_ring s) i = Some (Some nm) -> flag (s_ack s) p nm = true -> pend p nm tr = true).
Definition mute (e : event) : bool := match e with EvAck _ _ _ | EvAte _ _ | EvAcked _ _ => false | _ => true end.
Lemma mute_pend p nm ev a : forallb mute ev = true -> fold_left (pend_step p nm) ev a = a.
Proof.
  revert a; induction ev as [|e ev IH]; intros a H; [reflexivity|]. cbn in H. apply andb_true_iff in H. destruct H as [H1 H2].
  cbn. rewrite IH by exact H2. destruct e; try reflexivity; discriminate.
Qed.
Lemma rec_mute s nm f z ok : forallb mute (rec_events s nm f z ok) = true.
Proof.
  unfold rec_events, recreate; cbn [snd]. destruct ok; [|reflexivity]. cbn. apply forallb_forall. intros e H.
  apply in_map_iff in H. destruct H as [c [<- _]]. reflexivity.
Qed.
Lemma ack_rec s s' nm f z ok tr ev : Struct s -> AckOk s tr -> slot_name s = Some nm -> get_file s nm = Some f -> forallb mute ev = true ->
  s_ring s' = s_ring (rec_state s nm f z ok) -> s_ack s' = s_ack (rec_state s nm f z ok) -> s_next s' = Datatypes.S (s_next s) -> AckOk s' (tr ++ ev).
Proof.
  intros S [A1 A2] Sn G M E1 E2 E3. pose proof (t_fresh _ S _ _ G) as Ln.
  assert (F : forall p x, x <> nm -> flag (s_ack s') p x = flag (s_ack s) p x).
  { intros p x N. rewrite E2. cbn. apply flag_fold. exact N. }
  split.
  - intros p x Lx. rewrite E3 in Lx. rewrite F by lia. apply A1. lia.
  - intros i x p R K. rewrite pend_app, mute_pend by exact M. rewrite E1, ring_rec, nth_set_nth in R.
    destruct (Nat.eqb_spec i (s_idx s)) as [->|Ni].
    + destruct (Nat.ltb _ _); [|discriminate]. destruct ok; [|discriminate]. injection R as <-. rewrite F in K by lia. rewrite A1 in K by lia. discriminate.
    + rewrite F in K; [eapply A2; eauto|]. intros ->. apply Ni. eapply (t_inj _ S); [exact R|apply slot_ring; exact Sn].
Qed.
Lemma ack_upd s s' p nm (b : bool) tr e rest : AckOk s tr -> s_ring s' = s_ring s -> s_next s' = s_next s -> s_ack s' = aset (p, nm) b (s_ack s) ->
  nm < s_next s -> forallb mute rest = true ->
  (forall q x a, pend_step q x a e = if eqb (q, x) (p, nm) then b else a) -> AckOk s' (tr ++ e :: rest).
Proof.
  intros [A1 A2] E1 E2 E3 L M P. split.
  - intros q x Lx. rewrite E2 in Lx. rewrite E3, flag_aset. rewrite neq_eqb by (intros [= _ K]; lia). apply A1. exact Lx.
  - intros i x q R K. rewrite E1 in R. rewrite pend_app. cbn [fold_left]. rewrite mute_pend by exact M. rewrite P.
    rewrite E3, flag_aset in K. destruct (eqb (q, x) (p, nm)); [exact K|]. eapply A2; eauto.
Qed.
Lemma pair_eqb (q x p nm : nat) : Nat.eqb p q && Nat.eqb nm x = eqb (q, x) (p, nm).
Proof.
  destruct (eqb (q, x) (p, nm)) eqn:E.
  - apply eqb_true in E. injection E as -> ->. rewrite !Nat.eqb_refl. reflexivity.
  - apply eqb_false in E. destruct (Nat.eqb_spec p q), (Nat.eqb_spec nm x); cbn; congruence.
Qed.

Lemma ack_step s s' ev tr : Struct s -> AckOk s tr -> Step s s' ev -> AckOk s' (tr ++ ev).
Proof.
  intros S A H.
  assert (SAME : forall s1, s_ring s1 = s_ring s -> s_next s1 = s_next s -> s_ack s1 = s_ack s -> forallb mute ev = true -> AckOk s1 (tr ++ ev)).
  { intros s1 E1 E2 E3 M. destruct A as [A1 A2]. split; intros; rewrite ?E1, ?E2, ?E3 in *; auto. rewrite pend_app, mute_pend by exact M. eauto. }
  destruct H; try (apply SAME; auto; fail).
  - apply (ack_rec (upd_w s (WPrepared m)) _ nm f size ok); auto; [apply struct_w; exact S|apply rec_mute].
  - apply (ack_rec s _ nm f (f_cap f) false); auto.
  - apply (ack_rec s _ nm f (f_cap f) true); auto. rewrite forallb_app, rec_mute. reflexivity.
  - destruct (slot_live s nm S H0) as [f G]. apply (ack_upd s _ p nm false); auto; [apply (t_fresh _ S _ _ G)|]. intros q x a. cbn. rewrite pair_eqb. reflexivity.
  - apply (ack_upd s _ p nm false); auto; [apply (t_fresh _ S _ _ H1)|]. intros q x a. cbn. rewrite pair_eqb. reflexivity.
  - destruct (t_obs _ S _ _ _ H) as [f G]. apply (ack_upd s _ p nm true); auto; [apply (t_fresh _ S _ _ G)|]. intros q x a. cbn. rewrite pair_eqb. reflexivity.
Qed.

Lemma rec_hush s nm f z ok : forallb hush (rec_events s nm f z ok) = true.
Proof.
  unfold rec_events, recreate; cbn [snd]. destruct ok; [|reflexivity]. cbn. apply forallb_forall. intros e H.
  apply in_map_iff in H. destruct H as [c [<- _]]. reflexivity.
Qed.
Lemma invc_build s s' ev tr : InvC s tr -> Step s s' ev ->
  (forall a nm t0 waited b, tr ++ ev = a ++ EvSync nm t0 waited :: b ->
     (forall p, In p waited <-> valid nm p a = true) /\
     exists h pay full good a', a = a' ++ [EvWritten nm h pay full good] /\ (0 < h_ack h)%Z /\
       (returns b = 0 -> exists m eat set wait t f, s_w s' = WSyncing m eat set wait t /\ slot_name s' = Some nm /\ get_file s' nm = Some f /\
           h_ack h = m_ack m /\ (t0 <= t <= s_now s')%Z /\ NoDup wait /\
           (forall p, In p waited -> In p eat \/ In (EvAte nm p) b) /\
           (forall p, In p waited -> (In p wait /\ In (p, false) (f_conn f)) \/ served nm p t0 (h_ack h) b)) /\
       (forall b1 ok b2, b = b1 ++ EvReturn ok :: b2 -> returns b1 = 0 -> forall p, In p waited -> served nm p t0 (h_ack h) b1)) ->
  InvC s' (tr ++ ev).
Proof.
  intros C H K. pose proof (a_s _ _ (c_a _ _ C)) as S.
  destruct (ack_step s s' ev tr S (conj (c_new _ _ C) (c_ack _ _ C)) H) as [A1 A2].
  constructor; auto.
  - eapply inva_step; [apply C|exact H].
  - eapply val_step; eauto. apply C.
  - exact (conn_step s s' ev tr S (c_conn _ _ C) (c_val _ _ C) H).
Qed.

Lemma in_unique (p : nat) (l : list (nat * bool)) : NoDup (keys l) -> In (p, false) l -> existsb (fun c => Nat.eqb (fst c) p && snd c) l = false.
Proof.
  intros N H. destruct (existsb _ l) eqn:E; [|reflexivity]. apply existsb_exists in E. destruct E as [[q b] [E1 E2]]. cbn in E2.
  apply andb_true_iff in E2. destruct E2 as [E2 ->]. apply Nat.eqb_eq in E2. subst q.
  apply in_aget in H; [|exact N]. apply in_aget in E1; [|exact N]. congruence.
Qed.

Lemma invc_step s s' ev tr : InvC s tr -> Step s s' ev -> InvC s' (tr ++ ev).
Proof.
  intros C H. pose proof (a_s _ _ (c_a _ _ C)) as S. pose proof (a_w _ _ (c_a _ _ C)) as W. apply (invc_build s); auto.
  (* steps outside of the waiting, and steps that do not touch it *)
  assert (NOT : forall s1, forallb hush ev = true -> syncing (s_w s) = false ->
     forall m eat set wait t nm f b, s_w s = WSyncing m eat set wait t -> slot_name s = Some nm -> get_file s nm = Some f ->
     (t <= s_now s)%Z -> NoDup wait -> (exists a, tr = a ++ b) ->
     exists eat' set' wait' t' f', s_w s1 = WSyncing m eat' set' wait' t' /\ slot_name s1 = Some nm /\ get_file s1 nm = Some f' /\
       (t <= t' <= s_now s1)%Z /\ NoDup wait' /\
       (forall p, In p eat -> In p eat' \/ In (EvAte nm p) ev) /\
       (forall p, In p wait -> In (p, false) (f_conn f) -> (In p eat \/ In (EvAte nm p) b) ->
          (In p wait' /\ In (p, false) (f_conn f')) \/ forall t0, (t0 <= t)%Z -> served nm p t0 (m_ack m) (b ++ ev))).
  { intros s1 _ Q m eat st wt t nm f b E. rewrite E in Q. discriminate. }
  assert (KEEP : forall s1, forallb hush ev = true -> s_w s1 = s_w s -> slot_name s1 = slot_name s -> (s_now s <= s_now s1)%Z ->
     (forall nm f, slot_name s = Some nm -> syncing (s_w s) = true -> get_file s nm = Some f -> exists f', get_file s1 nm = Some f' /\ f_conn f' = f_conn f) ->
     forall m eat set wait t nm f b, s_w s = WSyncing m eat set wait t -> slot_name s = Some nm -> get_file s nm = Some f ->
     (t <= s_now s)%Z -> NoDup wait -> (exists a, tr = a ++ b) ->
     exists eat' set' wait' t' f', s_w s1 = WSyncing m eat' set' wait' t' /\ slot_name s1 = Some nm /\ get_file s1 nm = Some f' /\
       (t <= t' <= s_now s1)%Z /\ NoDup wait' /\
       (forall p, In p eat -> In p eat' \/ In (EvAte nm p) ev) /\
       (forall p, In p wait -> In (p, false) (f_conn f) -> (In p eat \/ In (EvAte nm p) b) ->
          (In p wait' /\ In (p, false) (f_conn f')) \/ forall t0, (t0 <= t)%Z -> served nm p t0 (m_ack m) (b ++ ev))).
  { intros s1 _ E1 E2 E3 E4 m eat st wt t nm f b K1 K2 K3 K4 K5 K6. destruct (E4 nm f K2) as [f' [F1 F2]]; [rewrite K1; reflexivity|exact K3|].
    exists eat, st, wt, t, f'. rewrite E1, E2, F2. repeat split; auto; try lia. }
  destruct H;
    try (eapply sync_frame; [exact C|reflexivity|]; apply NOT; [reflexivity|match goal with K : s_w s = _ |- _ => rewrite K; reflexivity end]; fail);
    try (eapply sync_frame; [exact C|reflexivity|]; apply KEEP; auto; [cbn; lia|eauto]; fail).
  - eapply sync_frame; [exact C|apply rec_hush|]. apply NOT; [apply rec_hush|rewrite H; reflexivity].
  - assert (Q : forallb hush (rec_events s nm f (f_cap f) true ++ [EvBegin (s_next s)]) = true) by (rewrite forallb_app, rec_hush; reflexivity).
    eapply sync_frame; [exact C|exact Q|]. apply NOT; [exact Q|rewrite H; reflexivity].
  - (* Rel *)
    intros a x t0 waited b E. apply cut_app in E. destruct E as [[b' [E ->]]|[a' [-> E]]].
    + destruct (c_sync _ _ C _ _ _ _ _ E) as [K1 [h [pay [fl [gd [a1 [K2 [K3 [K4 K5]]]]]]]]]. split; [exact K1|].
      exists h, pay, fl, gd, a1. split; [exact K2|]. split; [exact K3|]. split.
      * rewrite returns_app. cbn. rewrite Nat.add_0_r. intros R. destruct (K4 R) as [m' [eat [st [wt [t [g [L1 _]]]]]]]. congruence.
      * intros b1 ok b2 Eb R p Hp. apply cut_app in Eb. destruct Eb as [[b3 [Eb _]]|[a2 [_ Eb]]]; [eapply K5; eauto|].
        exfalso. apply (f_equal (filter is_return)) in Eb. rewrite filter_app in Eb. cbn in Eb. destruct (filter is_return a2); discriminate.
    + destruct a' as [|y a']; [discriminate|]. cbn in E. injection E as <- E. destruct a' as [|y a']; cbn in E; [|injection E as _ E; destruct a'; discriminate].
      injection E as <- <- <- <-. pose proof (slot_ring _ _ H0) as R. destruct (c_conn _ _ C _ _ _ R H1) as [C1 C2].
      assert (WV : forall p, In p (map fst (filter (fun c => negb (snd c)) (f_conn f))) <-> In (p, false) (f_conn f)).
      { intros p. rewrite in_map_iff. split.
        - intros [[q c] [<- Hc]]. apply filter_In in Hc. destruct Hc as [Hc Hn]. cbn in *. destruct c; [discriminate|exact Hc].
        - intros Hc. exists (p, false). split; [reflexivity|]. apply filter_In. auto. }
      split.
      { intros p. rewrite WV, valid_app. cbn. symmetry. apply C2. }
      exists (hdr_of m), (m_pay m), full, good, tr. split; [reflexivity|]. split; [exact H2|]. split.
      * intros _. do 5 eexists. exists (set_lock None f). split; [reflexivity|]. split; [rewrite sn_w, sn_file; exact H0|].
        split; [rewrite gf_w, gf_file, eqb_refl; reflexivity|]. split; [reflexivity|]. split; [cbn; lia|]. split; [exact C1|].
        assert (IK : forall p, In (p, false) (f_conn f) -> In p (map fst (f_conn f))) by (intros p Hp; apply (in_map fst) in Hp; exact Hp).
        split.
        -- intros p Hp. left. apply IK, WV, Hp.
        -- intros p Hp. left. apply WV in Hp. split; [apply IK; exact Hp|exact Hp].
      * intros b1 ok b2 Eb. destruct b1; discriminate.
  - (* Eat *)
    eapply sync_frame; [exact C|reflexivity|]. intros m' eat' st wt t' nm' f' b K1 K2 K3 K4 K5 K6. rewrite H in K1. injection K1 as <- <- <- <- <-.
    rewrite H0 in K2. injection K2 as <-. exists eat, set, wait, t, f'. split; [reflexivity|]. split; [exact H0|]. split; [exact K3|]. split; [cbn; lia|]. split; [exact K5|].
    split; [|intros q Q1 Q2 _; left; auto]. intros q [<-|Q]; [right; left; reflexivity|left; exact Q].
  - (* SetEv *)
    eapply sync_frame; [exact C|reflexivity|]. intros m' eat' st wt t' nm' f' b K1 K2 K3 K4 K5 K6. rewrite H in K1. injection K1 as <- <- <- <- <-.
    rewrite H0 in K2. injection K2 as <-. exists [], set, wait, (s_now s), f'. split; [reflexivity|]. split; [exact H0|]. split; [exact K3|]. split; [cbn; lia|].
    split; [exact K5|]. split; [intros q []|intros q Q1 Q2 _; left; auto].
  - (* AckGot *)
    eapply sync_frame; [exact C|reflexivity|]. intros m' eat' st wt t' nm' f' b K1 K2 K3 K4 K5 K6. rewrite H in K1. injection K1 as <- <- <- <- <-.
    rewrite H0 in K2. injection K2 as <-. exists [], [], wait, t, f'. split; [reflexivity|]. split; [exact H0|]. split; [exact K3|]. split; [cbn; lia|].
    inversion K5 as [|x l N1 N2]; subst. split; [exact N2|]. split; [intros q []|].
    intros q [<-|Q1] Q2 Q3; [|left; auto]. right. intros t0 _. left. destruct Q3 as [[]|Q3]. destruct K6 as [a ->].
    apply in_split in Q3. destruct Q3 as [b1 [b2 ->]]. pose proof (c_ack _ _ C _ _ _ (slot_ring _ _ H0) H3) as P.
    rewrite app_assoc in P. apply pend_after in P. destruct P as [c P]. exists c. apply in_or_app. left. apply in_or_app. right. right. exact P.
  - (* AckTO *)
    eapply sync_frame; [exact C|reflexivity|]. intros m' eat' st wt t' nm' f' b K1 K2 K3 K4 K5 K6. rewrite H in K1. injection K1 as <- <- <- <- <-.
    rewrite H0 in K2. injection K2 as <-. rewrite H1 in K3. injection K3 as <-. exists [], [], wait, t. eexists.
    split; [reflexivity|]. split; [exact H0|]. split; [rewrite gf_w, gf_file, eqb_refl; reflexivity|]. split; [cbn; lia|].
    inversion K5 as [|x l N1 N2]; subst. split; [exact N2|]. split; [intros q []|].
    intros q [<-|Q1] Q2 Q3.
    + right. intros t0 Ht. right. exists (s_now s). split; [apply in_or_app; right; left; reflexivity|lia].
    + left. split; [exact Q1|]. cbn [set_conn f_conn]. apply in_timeout. split; [exact Q2|]. intros ->. contradiction.
  - (* AckSkip *)
    eapply sync_frame; [exact C|reflexivity|]. intros m' eat' st wt t' nm' f' b K1 K2 K3 K4 K5 K6. rewrite H in K1. injection K1 as <- <- <- <- <-.
    rewrite H0 in K2. injection K2 as <-. rewrite H1 in K3. injection K3 as <-. exists [], [], wait, t, f.
    split; [reflexivity|]. split; [exact H0|]. split; [exact H1|]. split; [cbn; lia|].
    inversion K5 as [|x l N1 N2]; subst. split; [exact N2|]. split; [intros q []|].
    intros q [<-|Q1] Q2 Q3; [|left; auto]. destruct (c_conn _ _ C _ _ _ (slot_ring _ _ H0) H1) as [C1 _].
    rewrite (in_unique p (f_conn f) C1 Q2) in H2. discriminate.
  - (* Ret *)
    intros a nm t0 waited b0 E. apply cut_app in E. destruct E as [[b' [E ->]]|[a' [_ E]]].
    2: { destruct a' as [|y a']; [discriminate|]. cbn in E. injection E as _ E. destruct a'; discriminate. }
    destruct (c_sync _ _ C _ _ _ _ _ E) as [K1 [h [pay [fl [gd [a1 [K2 [K3 [K4 K5]]]]]]]]]. split; [exact K1|].
    exists h, pay, fl, gd, a1. split; [exact K2|]. split; [exact K3|]. split.
    + rewrite returns_app. change (returns [EvReturn b]) with 1. lia.
    + intros b1 ok b2 Eb R p Hp. apply cut_app in Eb. destruct Eb as [[b3 [Eb _]]|[a2 [-> Eb]]]; [eapply K5; eauto|].
      destruct a2 as [|y a2]; [|cbn in Eb; injection Eb as _ Eb; destruct a2; discriminate]. rewrite app_nil_r in *.
      destruct (K4 R) as [m [eat [st [wt [t [f [L1 [L2 [L3 [L4 [L5 [L6 [L7 L8]]]]]]]]]]]]]. destruct (L8 p Hp) as [[Q _]|Q]; [|exact Q].
      destruct H as [[m' [t' [HW _]]]|[HW _]]; rewrite HW in L1; [|discriminate]. injection L1 as <- <- <- <- <-. destruct Q.
  - (* Conn *)
    eapply sync_frame; [exact C|reflexivity|]. apply KEEP; auto; [cbn; lia|]. intros x g Sx Sy G. fin. rewrite neq_eqb; [eauto|].
    intros ->. destruct (s_w s) eqn:E; try discriminate. eapply H1; eauto. eapply (t_inj _ S); [exact H|apply slot_ring; exact Sx].
  - eapply sync_frame; [exact C|reflexivity|]. apply KEEP; auto; [cbn; lia|]. intros x g Sx Sy G. fin. destruct (eqb x nm) eqn:Q; [|eauto].
    apply eqb_true in Q. subst x. rewrite H0 in G. injection G as <-. eauto.
  - eapply sync_frame; [exact C|reflexivity|]. apply KEEP; auto; [cbn; lia|]. intros x g Sx Sy G. fin. destruct (eqb x nm) eqn:Q; [|eauto].
    apply eqb_true in Q. subst x. rewrite H0 in G. injection G as <-. eauto.
  - eapply sync_frame; [exact C|reflexivity|]. apply KEEP; auto; [cbn; lia|]. intros x g Sx Sy G. fin. destruct (eqb x nm) eqn:Q; [|eauto].
    apply eqb_true in Q. subst x. rewrite H0 in G. injection G as <-. eauto.
  - eapply sync_frame; [exact C|reflexivity|]. apply KEEP; auto; [cbn; lia|]. intros x g Sx Sy G. fin. destruct (eqb x nm) eqn:Q; [|eauto].
    apply eqb_true in Q. subst x. rewrite H0 in G. injection G as <-. eauto.
Qed.

Lemma invc_init n min : 0 < n -> InvC (sh_init n min true) [].
Proof.
  intros P. constructor; try discriminate; auto.
  - apply inva_init; exact P.
  - intros i nm f R G. unfold get_file in G. cbn [s_files sh_init] in G. rewrite aget_seq in G.
    destruct (Nat.leb 0 nm && Nat.ltb nm (0 + n)); [|discriminate]. injection G as <-. cbn. split; [constructor|]. intros p. split; [discriminate|intros []].
  - intros a nm t0 waited b E. destruct a; discriminate.
Qed.

(** ** Which message an acknowledgement is for *)
Definition ophdr (ph : ophase) : option hdr :=
  match ph with OHeader h | OInside h _ | OSkipped h | OCopied h _ | OProcess h _ | ODone h => Some h | _ => None end.
Definition current (w : wphase) : option msg :=
  match w with WLocked m | WHeaderDone m | WPayloadDone m _ _ _ | WSyncing m _ _ _ _ => Some m | _ => None end.
Definition BusyOk (s : shm) (tr : list event) : Prop :=
  forall p nm o, get_obs s p nm = Some o -> ophdr (o_ph o) <> None -> busy p nm tr = true.
Definition HdrOk (s : shm) : Prop :=
  forall m e st w t nm f, s_w s = WSyncing m e st w t -> slot_name s = Some nm -> get_file s nm = Some f -> f_hdr f = hdr_of m.
Definition BegOk (s : shm) (tr : list event) : Prop :=
  forall a nm b, tr = a ++ EvBegin nm :: b -> returns b = 0 ->
    exists m, current (s_w s) = Some m /\ slot_name s = Some nm /\
      (forall x h pay fl gd, In (EvWritten x h pay fl gd) b -> h = hdr_of m) /\
      forall p, busy p nm a = false -> (forall c, In (EvAck p nm c) b -> c = m_clock m) /\
        (forall o h, get_obs s p nm = Some o -> ophdr (o_ph o) = Some h -> h = hdr_of m).
Record InvD (s : shm) (tr : list event) : Prop := { d_a : InvA s tr; d_busy : BusyOk s tr; d_hdr : HdrOk s; d_beg : BegOk s tr }.

Lemma busy_app p nm a b : busy p nm (a ++ b) = fold_left (busy_step p nm) b (busy p nm a).
Proof. unfold busy. apply fold_left_app. Qed.
Definition lazy (e : event) : bool := match e with EvStart _ _ | EvDone _ _ | EvRead _ _ _ => false | _ => true end.
Lemma lazy_busy p nm ev a : forallb lazy ev = true -> fold_left (busy_step p nm) ev a = a.
Proof.
  revert a; induction ev as [|e ev IH]; intros a H; [reflexivity|]. cbn in H. apply andb_true_iff in H. destruct H as [H1 H2].
  cbn. rewrite IH by exact H2. destruct e; try reflexivity; discriminate.
Qed.
Lemma rec_lazy s nm f z ok : forallb lazy (rec_events s nm f z ok) = true.
Proof.
  unfold rec_events, recreate; cbn [snd]. destruct ok; [|reflexivity]. cbn. apply forallb_forall. intros e H.
  apply in_map_iff in H. destruct H as [c [<- _]]. reflexivity.
Qed.
Lemma busy_same s s' tr ev : BusyOk s tr -> forallb lazy ev = true -> (forall p nm, get_obs s' p nm = get_obs s p nm) -> BusyOk s' (tr ++ ev).
Proof. intros B L E p nm o G N. rewrite E in G. rewrite busy_app, lazy_busy by exact L. eapply B; eauto. Qed.
Lemma busy_obs s s' p nm o tr ev : BusyOk s tr -> (forall q x, get_obs s' q x = if eqb (q, x) (p, nm) then Some o else get_obs s q x) ->
  (forall q x a, (q, x) <> (p, nm) -> fold_left (busy_step q x) ev a = a) ->
  (ophdr (o_ph o) <> None -> fold_left (busy_step p nm) ev (busy p nm tr) = true) -> BusyOk s' (tr ++ ev).
Proof.
  intros B E H1 H2 q x o' G N. rewrite E in G. rewrite busy_app. destruct (eqb (q, x) (p, nm)) eqn:Q.
  - apply eqb_true in Q. injection Q as -> ->. injection G as <-. apply H2. exact N.
  - apply eqb_false in Q. rewrite H1 by exact Q. eapply B; eauto.
Qed.
Lemma busy_other (p nm q x : nat) : (q, x) <> (p, nm) -> Nat.eqb p q && Nat.eqb nm x = false.
Proof. intros N. rewrite pair_eqb. apply neq_eqb. exact N. Qed.
Lemma busy_step_inv s s' ev tr : BusyOk s tr -> Step s s' ev -> BusyOk s' (tr ++ ev).
Proof.
  intros B H.
  destruct H; try (apply (busy_same s); auto; fail);
    try (eapply (busy_obs s); [exact B|intros; fin; reflexivity|intros q x a N; cbn [fold_left busy_step]; rewrite ?busy_other by exact N; reflexivity|];
         cbn; rewrite ?Nat.eqb_refl; cbn; try (intros K; exfalso; apply K; reflexivity); intros _; try reflexivity; (eapply B; [eassumption|discriminate])).
  - apply (busy_same (upd_w s (WPrepared m))); auto. apply rec_lazy.
  - apply (busy_same s); auto. rewrite forallb_app, rec_lazy. reflexivity.
  - eapply (busy_obs s); [exact B|intros; fin; reflexivity|reflexivity|]. intros _. cbn. eapply B; [eassumption|].
    destruct H1 as [[bs ->]| ->]; discriminate.
  - intros q x o G N. unfold get_obs in G. cbn [s_obs] in G. rewrite aget_adel in G. destruct (eqb _ _); [discriminate|].
    rewrite app_nil_r. eapply B; eauto.
Qed.

Lemma hdr_step s s' ev tr : InvA s tr -> HdrOk s -> Step s s' ev -> HdrOk s'.
Proof.
  intros A B H. pose proof (a_s _ _ A) as S. pose proof (a_w _ _ A) as W.
  assert (KEEP : forall s1, s_w s1 = s_w s -> slot_name s1 = slot_name s ->
     (forall x g', get_file s1 x = Some g' -> exists g, get_file s x = Some g /\ f_hdr g' = f_hdr g) -> HdrOk s1).
  { intros s1 E1 E2 E3 m e st w t nm f K1 K2 K3. rewrite E1 in K1. rewrite E2 in K2. destruct (E3 _ _ K3) as [g [G ->]]. eapply B; eauto. }
  assert (NEW : forall m nm f m0 full good x g, s_w s = WPayloadDone m full good true -> slot_name s = Some nm -> get_file s nm = Some f ->
     m0 = m -> x = nm -> f_hdr g = f_hdr f -> f_hdr g = hdr_of m0).
  { intros m nm f m0 full good x g K1 K2 K3 -> -> K4. unfold WOk in W. rewrite K1 in W. destruct W as [y [k [W1 [W2 [_ [_ [W3 _]]]]]]]. congruence. }
  destruct H;
    try (intros m0 e0 st0 w0 t0 nm0 f0 K1; cbn in K1; discriminate);
    try (apply KEEP; auto; intros x g' G; eauto; fail);
    try (apply KEEP; auto; intros x g' G; fin; destruct (eqb x nm) eqn:Q; [|eauto]; apply eqb_true in Q; subst x; injection G as <-; eauto; fail).
  - intros m0 e0 st0 w0 t0 nm0 f0 K1 K2 K3. cbn in K1. injection K1 as <- <- <- <- <-. fin.
    rewrite H0 in K2. injection K2 as <-. rewrite eqb_refl in K3. injection K3 as <-. eapply NEW; eauto.
  - intros m0 e0 st0 w0 t0 nm0 f0 K1 K2 K3. cbn in K1. injection K1 as <- <- <- <- <-. fin.
    rewrite H0 in K2. injection K2 as <-. rewrite eqb_refl in K3. injection K3 as <-. eapply NEW; eauto.
  - intros m0 e0 st0 w0 t0 nm0 f0 K1 K2 K3. cbn in K1. injection K1 as <- <- <- <- <-. eapply B; eauto.
  - intros m0 e0 st0 w0 t0 nm0 f0 K1 K2 K3. cbn in K1. injection K1 as <- <- <- <- <-. eapply B; eauto.
  - intros m0 e0 st0 w0 t0 nm0 f0 K1 K2 K3. cbn in K1. injection K1 as <- <- <- <- <-. eapply B; eauto.
  - intros m0 e0 st0 w0 t0 nm0 f0 K1 K2 K3. cbn in K1. injection K1 as <- <- <- <- <-. fin.
    rewrite H0 in K2. injection K2 as <-. rewrite eqb_refl in K3. injection K3 as <-. cbn. eapply B; eauto.
  - intros m0 e0 st0 w0 t0 nm0 f0 K1 K2 K3. cbn in K1. injection K1 as <- <- <- <- <-. eapply B; eauto.
Qed.

Definition still (e : event) : bool := match e with EvBegin _ | EvReturn _ => false | _ => true end.
Lemma still_returns ev : forallb still ev = true -> returns ev = 0.
Proof.
  rewrite forallb_forall. intros H. unfold returns. rewrite filter_none; [reflexivity|]. intros e He. specialize (H e He). destruct e; auto; discriminate.
Qed.
Lemma beg_frame s s' tr ev : BegOk s tr -> forallb still ev = true ->
  (forall m nm, current (s_w s) = Some m -> slot_name s = Some nm -> current (s_w s') = Some m /\ slot_name s' = Some nm /\
     (forall p o' h, get_obs s' p nm = Some o' -> ophdr (o_ph o') = Some h -> h = hdr_of m \/ exists o, get_obs s p nm = Some o /\ ophdr (o_ph o) = Some h) /\
     (forall p c, In (EvAck p nm c) ev -> exists o h, get_obs s p nm = Some o /\ ophdr (o_ph o) = Some h /\ c = h_clock h) /\
     (forall x h pay fl gd, In (EvWritten x h pay fl gd) ev -> h = hdr_of m)) -> BegOk s' (tr ++ ev).
Proof.
  intros B Q F a nm b E R. apply cut_app in E. destruct E as [[b' [E ->]]|[a' [_ E]]].
  2: { exfalso. rewrite forallb_forall in Q. specialize (Q (EvBegin nm)). rewrite E in Q. discriminate Q. apply in_or_app. right. left. reflexivity. }
  rewrite returns_app, (still_returns ev Q), Nat.add_0_r in R. destruct (B a nm b' E R) as [m [B1 [B2 [B3 B4]]]].
  destruct (F m nm B1 B2) as [F1 [F2 [F3 [F4 F5]]]]. exists m. split; [exact F1|]. split; [exact F2|]. split.
  - intros x h pay fl gd K. apply in_app_or in K. destruct K; eauto.
  - intros p Hp. destruct (B4 p Hp) as [B5 B6]. split.
    + intros c K. apply in_app_or in K. destruct K as [K|K]; [apply B5; exact K|]. destruct (F4 p c K) as [o [h [G1 [G2 ->]]]].
      rewrite (B6 o h G1 G2). reflexivity.
    + intros o h G1 G2. destruct (F3 p o h G1 G2) as [K|[o2 [K1 K2]]]; [exact K|eapply B6; eauto].
Qed.

Ltac ob := try solve [intros ? [] | intros; fin; reflexivity | cbn; intros; congruence | let e := fresh in intros e [<-|[]]; exact Logic.I].
Lemma beg_step s s' ev tr : InvA s tr -> BusyOk s tr -> HdrOk s -> BegOk s tr -> Step s s' ev -> BegOk s' (tr ++ ev).
Proof.
  intros A U D B H. pose proof (a_s _ _ A) as S. pose proof (a_w _ _ A) as W. pose proof (a_l _ _ A) as L.
  assert (SAME : forall s1, forallb still ev = true -> (forall m, current (s_w s) = Some m -> current (s_w s1) = Some m) ->
      slot_name s1 = slot_name s -> (forall p nm, get_obs s1 p nm = get_obs s p nm) ->
      (forall e, In e ev -> match e with EvAck _ _ _ | EvWritten _ _ _ _ _ => False | _ => True end) -> BegOk s1 (tr ++ ev)).
  { intros s1 E1 E2 E3 E4 E5. apply (beg_frame s); auto. intros m nm C Sn. split; [auto|]. split; [rewrite E3; exact Sn|]. split; [|split].
    - intros p o' h G1 G2. rewrite E4 in G1. right. eauto.
    - intros p c K. destruct (E5 _ K).
    - intros x h pay fl gd K. destruct (E5 _ K). }
  assert (OBS : forall s1 p nm o, forallb still ev = true -> s_w s1 = s_w s -> slot_name s1 = slot_name s ->
      (forall q x, get_obs s1 q x = if eqb (q, x) (p, nm) then Some o else get_obs s q x) ->
      (forall m h, current (s_w s) = Some m -> slot_name s = Some nm -> ophdr (o_ph o) = Some h -> h = hdr_of m \/ exists o', get_obs s p nm = Some o' /\ ophdr (o_ph o') = Some h) ->
      (forall e, In e ev -> match e with EvAck q x c => q = p /\ x = nm /\ exists o h, get_obs s p nm = Some o /\ ophdr (o_ph o) = Some h /\ c = h_clock h
                                   | EvWritten _ _ _ _ _ => False | _ => True end) -> BegOk s1 (tr ++ ev)).
  { intros s1 p nm o E1 E2 E3 E4 E5 E6. apply (beg_frame s); auto. intros m x C Sn. split; [rewrite E2; exact C|]. split; [rewrite E3; exact Sn|]. split; [|split].
    - intros q o' h G1 G2. rewrite E4 in G1. destruct (eqb (q, x) (p, nm)) eqn:Q; [|right; eauto].
      apply eqb_true in Q. injection Q as -> ->. injection G1 as <-. eapply E5; eauto.
    - intros q c K. destruct (E6 _ K) as [-> [-> K2]]. exact K2.
    - intros y h pay fl gd K. destruct (E6 _ K). }
  assert (NO : forall e, In e (@nil event) -> match e with EvAck _ _ _ | EvWritten _ _ _ _ _ => False | _ => True end) by (intros e []).
  assert (NO2 : forall p nm e, In e (@nil event) -> match e with EvAck q x c => q = p /\ x = nm /\ exists o h, get_obs s p nm = Some o /\ ophdr (o_ph o) = Some h /\ c = h_clock h
                                   | EvWritten _ _ _ _ _ => False | _ => True end) by (intros p nm e []).
  assert (IDLE : forall s1, current (s_w s) = None -> forallb still ev = true -> BegOk s1 (tr ++ ev)).
  { intros s1 E1 E2 a nm b E R. apply cut_app in E. destruct E as [[b' [E ->]]|[a' [_ E]]].
    - rewrite returns_app, (still_returns ev E2), Nat.add_0_r in R. destruct (B a nm b' E R) as [m [B1 _]]. congruence.
    - exfalso. rewrite forallb_forall in E2. specialize (E2 (EvBegin nm)). rewrite E in E2. discriminate E2. apply in_or_app. right. left. reflexivity. }
  assert (RS : forall s0 x f0 z ok, forallb still (rec_events s0 x f0 z ok) = true).
  { intros s0 x f0 z ok. unfold rec_events, recreate; cbn [snd]. destruct ok; [|reflexivity]. cbn. apply forallb_forall. intros e K.
    apply in_map_iff in K. destruct K as [c [<- _]]. reflexivity. }
  assert (START : forall s1 m nm pre, current (s_w s) = None -> forallb still pre = true -> ev = pre ++ [EvBegin nm] -> current (s_w s1) = Some m -> slot_name s1 = Some nm ->
      (forall p o h, get_obs s1 p nm = Some o -> ophdr (o_ph o) = Some h -> busy p nm (tr ++ pre) = true) -> BegOk s1 (tr ++ ev)).
  { intros s1 m nm pre E1 E2 E3 E4 E5 E6 a x b E R. rewrite E3, app_assoc in E. apply cut_app in E. destruct E as [[b' [E ->]]|[a' [-> E]]].
    - apply cut_app in E. destruct E as [[b2 [E ->]]|[a' [_ E]]].
      + rewrite !returns_app, (still_returns pre E2) in R. cbn in R. destruct (B a x b2 E) as [m' [B1 _]]; [lia|congruence].
      + exfalso. rewrite forallb_forall in E2. specialize (E2 (EvBegin x)). rewrite E in E2. discriminate E2. apply in_or_app. right. left. reflexivity.
    - destruct a' as [|y a']; [|cbn in E; injection E as _ E; destruct a'; discriminate]. cbn in E. injection E as <- <-. rewrite app_nil_r.
      exists m. split; [exact E4|]. split; [exact E5|]. split; [intros y h pay fl gd []|]. intros p Hp. split; [intros c []|].
      intros o h G1 G2. rewrite (E6 p o h G1 G2) in Hp. discriminate. }
  destruct H;
    try (apply IDLE; [match goal with K : s_w s = _ |- _ => rewrite K; reflexivity end|reflexivity || apply RS]; fail);
    try (apply SAME; auto; first [match goal with K : s_w s = _ |- _ => rewrite K end; cbn; solve [auto]|intros e0 He; cbn in He; solve [intuition (subst; exact Logic.I)]]; fail);
    try (apply SAME; auto; fail).
  - (* Lock *)
    apply (START _ m nm []); auto; [rewrite H; reflexivity|]. intros p o h G1 G2. rewrite app_nil_r. eapply U; [exact G1|congruence].
  - (* LockRec *)
    apply (START _ m (s_next s) (rec_events s nm f (f_cap f) true)); auto; [rewrite H; reflexivity|rewrite sn_w, sn_file; apply slot_next, (t_idx _ S)|].
    intros p o h G1 G2. fin. destruct (t_obs _ S _ _ _ G1) as [g G]. rewrite next_fresh in G by exact S. discriminate.
  - (* Rel *)
    apply (beg_frame s); auto. intros m0 x C Sn. rewrite H in C. cbn in C. injection C as <-. split; [reflexivity|]. split; [exact Sn|]. split; [|split].
    + intros p o h G1 G2. right. eauto.
    + intros p c K; cbn in K; intuition discriminate.
    + intros y h pay fl gd [K|[K|[]]]; [congruence|discriminate].
  - apply (beg_frame s); auto. intros m0 x C Sn. rewrite H in C. cbn in C. injection C as <-. split; [reflexivity|]. split; [exact Sn|]. split; [|split].
    + intros p o h G1 G2. right. eauto.
    + intros p c [K|[]]; discriminate.
    + intros y h pay fl gd [K|[]]. congruence.
  - (* RelFail *)
    exfalso. unfold WOk in W. rewrite H in W. destruct W as [y [k [_ [_ [_ [K _]]]]]]. discriminate.
  - (* Ret *)
    intros a nm b0 E R. exfalso. apply cut_app in E. destruct E as [[b' [E ->]]|[a' [_ E]]].
    + rewrite returns_app in R. change (returns [EvReturn b]) with 1 in R. lia.
    + destruct a' as [|y a']; [discriminate|]. cbn in E. injection E as _ E. destruct a'; discriminate.
  - apply (OBS _ p nm obs0); auto; ob.
  - apply (OBS _ p nm (Obs last true OIdle buf)); auto; ob.
  - apply (OBS _ p nm (Obs last false OLocked buf)); auto; ob.
  - apply (OBS _ p nm (Obs last u OIdle buf)); auto; ob.
  - (* OHdrNew *)
    apply (OBS _ p nm (Obs last u (OHeader (f_hdr f)) buf)); auto; ob.
    cbn. intros m h C Sn [= <-]. left. pose proof (sub_excludes s nm f p _ S W L Sn H0 H eq_refl) as Q.
    destruct (s_w s) eqn:Ew; try discriminate. cbn in C. injection C as <-. eapply D; eauto.
  - apply (OBS _ p nm (Obs last u (OInside h (prefix (h_size h) (f_pay f))) buf)); auto; ob.
    cbn. intros m k C Sn [= <-]. right. eexists. split; [exact H|reflexivity].
  - apply (OBS _ p nm (Obs last u (OSkipped h) buf)); auto; ob.
    cbn. intros m k C Sn [= <-]. right. eexists. split; [exact H|reflexivity].
  - apply (OBS _ p nm (Obs last u (OCopied h bs) bs)); auto; ob.
    cbn. intros m k C Sn [= <-]. right. eexists. split; [exact H|reflexivity].
  - apply (OBS _ p nm (Obs (h_clock h) u (ODone h) buf)); auto; ob.
    cbn. intros m k C Sn [= <-]. right. eexists. split; [exact H|]. destruct H1 as [[bs ->]| ->]; reflexivity.
  - apply (OBS _ p nm (Obs (h_clock h) u (OProcess h bs) buf)); auto; ob.
    cbn. intros m k C Sn [= <-]. right. eexists. split; [exact H|reflexivity].
  - apply (OBS _ p nm (Obs last u (ODone h) buf)); auto; ob.
    cbn. intros m k C Sn [= <-]. right. eexists. split; [exact H|reflexivity].
  - apply (OBS _ p nm (Obs last u OIdle buf)); auto; ob.
  - apply (OBS _ p nm (Obs last u OIdle buf)); auto; ob.
    intros e [<-|[<-|[]]]; [|exact Logic.I]. split; [reflexivity|]. split; [reflexivity|]. do 2 eexists. split; [exact H|]. split; reflexivity.
  - apply (beg_frame s); auto. intros m x C Sn. split; [exact C|]. split; [exact Sn|]. split; [|split].
    + intros q o h G1 G2. unfold get_obs in G1. cbn [s_obs] in G1. rewrite aget_adel in G1. destruct (eqb _ _); [discriminate|]. right. eauto.
    + intros q c [].
    + intros y h pay fl gd [].
Qed.
Lemma invd_step s s' ev tr : InvD s tr -> Step s s' ev -> InvD s' (tr ++ ev).
Proof.
  intros [A B C D] H. constructor.
  - eapply inva_step; eauto.
  - eapply busy_step_inv; eauto.
  - eapply hdr_step; eauto.
  - eapply beg_step; eauto.
Qed.
Lemma invd_init n min : 0 < n -> InvD (sh_init n min true) [].
Proof.
  intros P. constructor.
  - apply inva_init; exact P.
  - intros p nm o G. discriminate.
  - intros m e st w t nm f K. discriminate.
  - intros a nm b E. destruct a; discriminate.
Qed.

(** ** The publisher gets out of the waiting by itself *)
Lemma run_app ops1 ops2 s s1 e1 s2 e2 : sh_run ops1 s = Some (s1, e1) -> sh_run ops2 s1 = Some (s2, e2) ->
  sh_run (ops1 ++ ops2) s = Some (s2, e1 ++ e2).
Proof.
  revert s e1; induction ops1 as [|op ops IH]; intros s e1 H1 H2; cbn in *.
  - injection H1 as <- <-. exact H2.
  - destruct (sh_step op s) as [[s' e']|]; [|discriminate]. destruct (sh_run ops s') as [[s3 e3]|] eqn:E; [|discriminate].
    injection H1 as <- <-. rewrite (IH _ _ E H2), app_assoc. reflexivity.
Qed.
Lemma elapsed_app a b : elapsed (a ++ b) = (elapsed a + elapsed b)%Z.
Proof. unfold elapsed. induction a as [|op a IH]; cbn; [reflexivity|]. destruct op; rewrite ?IH; lia. Qed.

Definition gets_to (s s' : shm) (bound : Z) : Prop :=
  exists ops ev, forallb waiting_op ops = true /\ (elapsed ops <= bound)%Z /\ sh_run ops s = Some (s', ev).
Lemma gets_trans s1 s2 s3 x y : gets_to s1 s2 x -> gets_to s2 s3 y -> gets_to s1 s3 (x + y).
Proof.
  intros [o1 [e1 [A1 [A2 A3]]]] [o2 [e2 [B1 [B2 B3]]]]. exists (o1 ++ o2), (e1 ++ e2).
  split; [rewrite forallb_app, A1, B1; reflexivity|]. split; [rewrite elapsed_app; lia|eapply run_app; eauto].
Qed.
Lemma gets_one op s s' ev : waiting_op op = true -> elapsed [op] = 0%Z -> sh_step op s = Some (s', ev) -> gets_to s s' 0.
Proof. intros H1 H2 H3. exists [op], (ev ++ []). split; [cbn; rewrite H1; reflexivity|]. split; [lia|]. cbn. rewrite H3. reflexivity. Qed.
Lemma gets_refl s : gets_to s s 0.
Proof. exists [], []. repeat split; cbn; auto; lia. Qed.

Lemma eat_all s m eat set wait t nm : s_w s = WSyncing m eat set wait t -> slot_name s = Some nm ->
  exists s', gets_to s s' 0 /\ s_w s' = WSyncing m [] set wait t /\ slot_name s' = Some nm /\ s_files s' = s_files s /\ s_now s' = s_now s.
Proof.
  revert s; induction eat as [|p eat IH]; intros s H1 H2.
  - exists s. split; [apply gets_refl|auto].
  - destruct (IH (upd_w (upd_ack s p nm false) (WSyncing m eat set wait t)) eq_refl H2) as [s' [G K]].
    exists s'. split; [|exact K]. apply (gets_trans s _ s' 0 0) with (2 := G). apply (gets_one (SEat p) s _ [EvAte nm p]); auto.
    cbn [sh_step]. rewrite H1, H2, Nat.eqb_refl. reflexivity.
Qed.
Lemma set_all s m set wait t nm : s_w s = WSyncing m [] set wait t -> slot_name s = Some nm -> (t <= s_now s)%Z ->
  exists s' t', gets_to s s' 0 /\ s_w s' = WSyncing m [] [] wait t' /\ slot_name s' = Some nm /\ s_files s' = s_files s /\ s_now s' = s_now s /\ (t' <= s_now s)%Z.
Proof.
  revert s t; induction set as [|p set IH]; intros s t H1 H2 H3.
  - exists s, t. split; [apply gets_refl|auto].
  - destruct (IH (upd_w (upd_snd s p nm true) (WSyncing m [] set wait (s_now s))) (s_now s) eq_refl H2) as [s' [t' [G K]]]; [cbn; lia|].
    exists s', t'. split; [|exact K]. apply (gets_trans s _ s' 0 0) with (2 := G). apply (gets_one (SSet p) s _ []); auto.
    cbn [sh_step]. rewrite H1, H2, Nat.eqb_refl. reflexivity.
Qed.
Lemma wait_all s m wait t nm f : s_w s = WSyncing m [] [] wait t -> slot_name s = Some nm -> get_file s nm = Some f -> (t + m_ack m <= s_now s)%Z ->
  exists s', gets_to s s' 0 /\ s_w s' = WSyncing m [] [] [] t.
Proof.
  revert s f; induction wait as [|p wait IH]; intros s f H1 H2 H3 H4.
  - exists s. split; [apply gets_refl|exact H1].
  - destruct (existsb (fun c => Nat.eqb (fst c) p && snd c) (f_conn f)) eqn:E.
    + destruct (IH (upd_w s (WSyncing m [] [] wait t)) f eq_refl H2 H3 H4) as [s' [G K]].
      exists s'. split; [|exact K]. apply (gets_trans s _ s' 0 0) with (2 := G). apply (gets_one (SSkip p) s _ []); auto.
      cbn [sh_step]. rewrite H1, H2, H3, E, Nat.eqb_refl. reflexivity.
    + set (g := set_conn (map (fun c => if Nat.eqb (fst c) p then (fst c, true) else c) (f_conn f)) f).
      destruct (IH (upd_w (upd_file s nm g) (WSyncing m [] [] wait t)) g eq_refl H2) as [s' [G K]]; [fin; reflexivity|exact H4|].
      exists s'. split; [|exact K]. apply (gets_trans s _ s' 0 0) with (2 := G). apply (gets_one (SAckTimeout p) s _ [EvTimedOut nm p (s_now s)]); auto.
      cbn [sh_step]. rewrite H1, H2, H3, E, Nat.eqb_refl. apply Z.leb_le in H4. rewrite H4. reflexivity.
Qed.
Lemma finish_alone s m eat set wait t nm f : s_w s = WSyncing m eat set wait t -> slot_name s = Some nm -> get_file s nm = Some f -> (t <= s_now s)%Z ->
  exists ops ev s', forallb waiting_op ops = true /\ (elapsed ops <= Z.max 0 (m_ack m))%Z /\ sh_run ops s = Some (s', ev) /\ s_w s' = WIdle
                    /\ exists ev', ev = ev' ++ [EvReturn true].
Proof.
  intros H1 H2 H3 H4. destruct (eat_all _ _ _ _ _ _ _ H1 H2) as [s1 [G1 [W1 [S1 [F1 N1]]]]].
  destruct (set_all s1 m set wait t nm W1 S1) as [s2 [t2 [G2 [W2 [S2 [F2 [N2 T2]]]]]]]; [lia|].
  set (s3 := Shm (s_ring s2) (s_idx s2) (s_files s2) (s_next s2) (s_min s2) (s_w s2) (s_obs s2) (s_snd s2) (s_ack s2) (s_now s2 + Z.max 0 (Z.max 0 (m_ack m)))).
  assert (G3 : gets_to s2 s3 (Z.max 0 (m_ack m))).
  { exists [STick (Z.max 0 (m_ack m))], []. split; [reflexivity|]. split; [cbn; lia|]. reflexivity. }
  destruct (wait_all s3 m wait t2 nm f) as [s4 [G4 W4]]; auto.
  - unfold get_file in *. cbn [s3 s_files]. rewrite F2, F1. exact H3.
  - cbn [s3 s_now]. lia.
  - pose proof (gets_trans _ _ _ _ _ G1 (gets_trans _ _ _ _ _ G2 (gets_trans _ _ _ _ _ G3 G4))) as [ops [ev [A1 [A2 A3]]]].
    exists (ops ++ [SReturn]), (ev ++ [EvReturn true]), (fst (finish s4 true)).
    split; [rewrite forallb_app, A1; reflexivity|]. split; [rewrite elapsed_app; cbn [elapsed fold_right]; lia|].
    split; [|split; [reflexivity|eauto]]. eapply run_app; [exact A3|]. cbn [sh_run sh_step]. rewrite W4. reflexivity.
Qed.

(** ** Single steps of a run *)
Lemma run_split ops s s' tr a e b : sh_run ops s = Some (s', tr) -> tr = a ++ e :: b ->
  exists ops1 op ops2 s1 tr1 s2 ev x y, ops = ops1 ++ op :: ops2 /\ sh_run ops1 s = Some (s1, tr1) /\ sh_step op s1 = Some (s2, ev) /\
    ev = x ++ e :: y /\ a = tr1 ++ x.
Proof.
  revert s tr a; induction ops as [|op ops IH]; intros s tr a H E; cbn in H.
  - injection H as <- <-. destruct a; discriminate.
  - destruct (sh_step op s) as [[s1 e1]|] eqn:E1; [|discriminate]. destruct (sh_run ops s1) as [[s2 e2]|] eqn:E2; [|discriminate].
    injection H as <- <-. apply cut_app in E. destruct E as [[b' [E _]]|[a' [-> E]]].
    + exists [], op, ops, s, [], s1, e1, a, b'. repeat split; auto.
    + destruct (IH _ _ _ E2 E) as [o1 [op' [o2 [t1 [tr1 [t2 [ev [x [y [K1 [K2 [K3 [K4 ->]]]]]]]]]]]]].
      exists (op :: o1), op', o2, t1, (e1 ++ tr1), t2, ev, x, y. split; [rewrite K1; reflexivity|]. split; [cbn; rewrite E1, K2; reflexivity|].
      split; [exact K3|]. split; [exact K4|]. rewrite app_assoc. reflexivity.
Qed.

(** ** The statements *)
Lemma run_invc n min ops s tr : 0 < n -> sh_run ops (sh_init n min true) = Some (s, tr) -> InvC s tr.
Proof.
  intros P R. destruct (run_inv InvC ops (sh_init n min true) [] (fun s tr H => c_a _ _ H) (fun s s' ev tr => invc_step s s' ev tr) (invc_init n min P)) as [s' [tr' [R' H]]].
  rewrite R in R'. injection R' as <- <-. exact H.
Qed.
Lemma run_invd n min ops s tr : 0 < n -> sh_run ops (sh_init n min true) = Some (s, tr) -> InvD s tr.
Proof.
  intros P R. destruct (run_inv InvD ops (sh_init n min true) [] (fun s tr H => d_a _ _ H) (fun s s' ev tr => invd_step s s' ev tr) (invd_init n min P)) as [s' [tr' [R' H]]].
  rewrite R in R'. injection R' as <- <-. exact H.
Qed.
Lemma run_b n min ops s tr : 0 < n -> sh_run ops (sh_init n min true) = Some (s, tr) -> InvB n s tr.
Proof. intros P R. destruct (run_invb n min ops P) as [s' [tr' [R' H]]]. rewrite R in R'. injection R' as <- <-. exact H. Qed.
Lemma run_a n min ops s tr : 0 < n -> sh_run ops (sh_init n min true) = Some (s, tr) -> InvA s tr.
Proof. intros P R. exact (b_a _ _ _ (run_b n min ops s tr P R)). Qed.

Lemma no_fault_lemma n min ops : 0 < n -> sh_run ops (sh_init n min true) <> None.
Proof. intros P. destruct (run_inva n min ops P) as [s [tr [-> _]]]. discriminate. Qed.
Lemma no_files_lemma n min m extra ok ops : sh_run (SPrepare m extra ok :: ops) (sh_init n min false) = None.
Proof. reflexivity. Qed.

Lemma kept_lemma n min ops s tr a nm h pay full b : 0 < n -> sh_run ops (sh_init n min true) = Some (s, tr) ->
  tr = a ++ EvWritten nm h pay full true :: b -> (returns b < n \/ (returns b = n /\ s_w s = WIdle)) -> holds s nm h pay.
Proof.
  intros P R E K. destruct (proj2 (b_keep _ _ _ (run_b n min ops s tr P R) _ _ _ _ _ _ _ E) K) as [i [f [K1 [K2 [K3 [K4 [K5 K6]]]]]]].
  exists f. split; [exact K3|]. split; [exact K4|]. split; [apply K6; reflexivity|exact K5].
Qed.
Lemma full_lemma n min ops s tr nm h pay full good : 1 < n -> sh_run ops (sh_init n min true) = Some (s, tr) ->
  In (EvWritten nm h pay full good) tr -> full = true.
Proof. intros P R I. assert (P' : 0 < n) by lia. apply (proj2 (b_full _ _ _ (run_b n min ops s tr P' R) ltac:(lia)) _ _ _ _ _ I). Qed.

Lemma written_slot s s' ev nm h pay full good : Step s s' ev -> In (EvWritten nm h pay full good) ev -> slot_name s = Some nm.
Proof.
  intros H I. destruct H; cbn in I; try (exfalso; intuition discriminate);
    try (repeat match goal with K : _ \/ _ |- _ => destruct K as [K|K] end; try discriminate; try contradiction; congruence).
  - unfold rec_events, recreate in I; cbn [snd] in I. destruct ok; [|destruct I]. destruct I as [I|I]; [discriminate|].
    apply in_map_iff in I. destruct I as [c [I _]]. discriminate.
  - unfold rec_events, recreate in I; cbn [snd] in I. destruct I as [I|I]; [discriminate|]. apply in_app_or in I. destruct I as [I|I].
    + apply in_map_iff in I. destruct I as [c [I _]]. discriminate.
    + destruct I as [I|[]]. discriminate.
Qed.
Definition is_written (e : event) : bool := match e with EvWritten _ _ _ _ _ => true | _ => false end.
Lemma written_first s s' ev e : Step s s' ev -> In e (tl ev) -> is_written e = false.
Proof.
  intros H I.
  assert (RE : forall t nm f z ok, In e (tl (rec_events t nm f z ok)) -> is_written e = false).
  { intros t nm f z ok J. unfold rec_events, recreate in J; cbn [snd] in J. destruct ok; [|destruct J]. cbn [tl] in J.
    apply in_map_iff in J. destruct J as [c [<- _]]. reflexivity. }
  destruct H; cbn [tl] in I; try (repeat (destruct I as [I|I]; [subst e; reflexivity|]); destruct I).
  - eapply RE; eauto.
  - unfold rec_events in I. cbn [recreate snd app tl] in I. apply in_app_or in I. destruct I as [I|[<-|[]]]; [|reflexivity].
    apply in_map_iff in I. destruct I as [c [<- _]]. reflexivity.
Qed.
Lemma other_file_lemma n min ops s tr a nm1 h1 pay1 full1 good1 b nm2 h2 pay2 full2 good2 c :
  0 < n -> sh_run ops (sh_init n min true) = Some (s, tr) ->
  tr = a ++ EvWritten nm1 h1 pay1 full1 good1 :: b ++ EvWritten nm2 h2 pay2 full2 good2 :: c -> 0 < returns b < n -> nm1 <> nm2.
Proof.
  intros P R E L Q. rewrite app_comm_cons, app_assoc in E.
  destruct (run_split _ _ _ _ _ _ _ R E) as [o1 [op [o2 [s1 [tr1 [s2 [ev [x [y [K1 [K2 [K3 [K4 K5]]]]]]]]]]]]].
  pose proof (run_b n min _ _ _ P K2) as B. pose proof (a_s _ _ (b_a _ _ _ B)) as T.
  destruct (step_cases op s1 s2 ev (t_len _ T) (t_idx _ T) K3) as [[_ ->]|H]; [destruct x; discriminate|].
  assert (N2 : slot_name s1 = Some nm2). { eapply written_slot; [exact H|]. rewrite K4. apply in_or_app. right. left. reflexivity. }
  assert (X : x = []).
  { destruct x as [|e0 x]; [reflexivity|]. exfalso.
    assert (Y : is_written (EvWritten nm2 h2 pay2 full2 good2) = false); [|discriminate].
    eapply written_first; [exact H|]. rewrite K4. cbn [app tl]. apply in_or_app. right. left. reflexivity. }
  subst x. rewrite app_nil_r in K5. subst tr1.
  destruct (proj2 (b_keep _ _ _ B _ _ _ _ _ _ _ eq_refl) (or_introl (proj2 L))) as [i [f [J1 [J2 _]]]].
  apply slot_ring in N2. subst nm2. assert (I2 : i = s_idx s1) by (apply (t_inj _ T) with (nm := nm1); assumption).
  pose proof (t_idx _ T) as LI. rewrite (b_n _ _ _ B) in LI. subst i. rewrite J2 in LI at 1.
  assert (s_idx s1 < n) by (rewrite J2; apply Nat.mod_upper_bound; lia).
  destruct (Nat.lt_ge_cases (s_idx s1 + returns b) n) as [Y|Y].
  - rewrite Nat.mod_small in J2 by exact Y. lia.
  - rewrite (Nat.mod_eq (s_idx s1 + returns b) n) in J2 by lia.
    assert ((s_idx s1 + returns b) / n = 1) by (symmetry; apply Nat.div_unique with (s_idx s1 + returns b - n); lia). lia.
Qed.

Lemma delivered_lemma n min ops s tr a p nm h bs b : 0 < n -> sh_run ops (sh_init n min true) = Some (s, tr) ->
  tr = a ++ EvDeliver p nm h bs :: b -> written_as a nm h bs /\ Forall (fun c => c < h_clock h)%Z (seen p nm a).
Proof. intros P R E. apply (a_t _ _ (run_a n min ops s tr P R) _ _ _ E). Qed.
Lemma ack_lemma n min ops s tr a p nm c b : 0 < n -> sh_run ops (sh_init n min true) = Some (s, tr) ->
  tr = a ++ EvAck p nm c :: b -> exists h bs, In (EvDeliver p nm h bs) a /\ h_clock h = c.
Proof. intros P R E. apply (a_t _ _ (run_a n min ops s tr P R) _ _ _ E). Qed.

Lemma waits_lemma n min ops s tr a nm t0 waited b1 ok b2 : 0 < n -> sh_run ops (sh_init n min true) = Some (s, tr) ->
  tr = a ++ EvSync nm t0 waited :: b1 ++ EvReturn ok :: b2 -> returns b1 = 0 ->
  (forall p, In p waited <-> valid nm p a = true) /\
  exists a' h pay full good, a = a' ++ [EvWritten nm h pay full good] /\ (0 < h_ack h)%Z /\
    forall p, In p waited -> (exists c, In (EvAck p nm c) b1) \/ (exists t, In (EvTimedOut nm p t) b1 /\ (t0 + h_ack h <= t)%Z).
Proof.
  intros P R E K. destruct (c_sync _ _ (run_invc n min ops s tr P R) _ _ _ _ _ E) as [K1 [h [pay [full [good [a' [K2 [K3 [_ K4]]]]]]]]].
  split; [exact K1|]. exists a', h, pay, full, good. split; [exact K2|]. split; [exact K3|]. exact (K4 b1 ok b2 eq_refl K).
Qed.

Lemma step_sync s s' ev x nm h pay full good y : Step s s' ev -> ev = x ++ EvWritten nm h pay full good :: y -> (0 < h_ack h)%Z ->
  exists t w, y = [EvSync nm t w].
Proof.
  intros H E L. destruct x as [|e x].
  - destruct H; try discriminate; try (injection E as <- <- <- <- <- <-).
    + unfold rec_events, recreate in E; cbn [snd] in E. destruct ok; discriminate.
    + eauto.
    + cbn in L. lia.
  - exfalso. assert (Y : is_written (EvWritten nm h pay full good) = false); [|discriminate].
    eapply written_first; [exact H|]. rewrite E. cbn [app tl]. apply in_or_app. right. left. reflexivity.
Qed.
Lemma synced_lemma n min ops s tr a nm h pay full good b : 0 < n -> sh_run ops (sh_init n min true) = Some (s, tr) ->
  tr = a ++ EvWritten nm h pay full good :: b -> (0 < h_ack h)%Z -> exists t w b', b = EvSync nm t w :: b'.
Proof.
  intros P R. assert (G : forall s0 tr0, InvA s0 tr0 -> forall tr a, sh_run ops s0 = Some (s, tr) ->
    tr = a ++ EvWritten nm h pay full good :: b -> (0 < h_ack h)%Z -> exists t w b', b = EvSync nm t w :: b').
  { clear R tr a. induction ops as [|op ops IH]; intros s0 tr0 A tr a R E L; cbn in R.
    - injection R as <- <-. destruct a; discriminate.
    - destruct (sh_step op s0) as [[s1 e1]|] eqn:E1; [|discriminate]. destruct (sh_run ops s1) as [[s2 e2]|] eqn:E2; [|discriminate].
      injection R as <- <-. pose proof (a_s _ _ A) as T.
      destruct (step_cases op s0 s1 e1 (t_len _ T) (t_idx _ T) E1) as [[-> ->]|H].
      + eapply (IH s0 tr0); eauto.
      + apply cut_app in E. destruct E as [[b' [E ->]]|[a' [-> E]]].
        * destruct (step_sync _ _ _ _ _ _ _ _ _ _ H E L) as [t [w ->]]. exists t, w, e2. reflexivity.
        * eapply (IH s1 (tr0 ++ e1)); eauto. eapply inva_step; eauto. }
  apply (G _ [] (inva_init n min P) tr a R).
Qed.
Lemma right_ack_lemma n min ops s tr a nm b h pay full good p c : 0 < n -> sh_run ops (sh_init n min true) = Some (s, tr) ->
  tr = a ++ EvBegin nm :: b -> returns b = 0 -> In (EvWritten nm h pay full good) b -> busy p nm a = false ->
  In (EvAck p nm c) b -> c = h_clock h.
Proof.
  intros P R E K1 K2 K3 K4. destruct (d_beg _ _ (run_invd n min ops s tr P R) _ _ _ E K1) as [m [M1 [M2 [M3 M4]]]].
  rewrite (M3 _ _ _ _ _ K2). cbn. apply (proj1 (M4 p K3)). exact K4.
Qed.
(** A send that has begun waiting is one that has an EvSync and no EvReturn yet. *)
Lemma returns_alone_lemma n min ops s tr a nm t0 waited b : 0 < n -> sh_run ops (sh_init n min true) = Some (s, tr) ->
  tr = a ++ EvSync nm t0 waited :: b -> returns b = 0 ->
  exists a' h pay full good, a = a' ++ [EvWritten nm h pay full good] /\
  exists ops' ev s', forallb waiting_op ops' = true /\ (elapsed ops' <= h_ack h)%Z /\ sh_run ops' s = Some (s', ev ++ [EvReturn true]).
Proof.
  intros P R E K. destruct (c_sync _ _ (run_invc n min ops s tr P R) _ _ _ _ _ E) as [_ [h [pay [full [good [a' [K2 [K3 [K4 _]]]]]]]]].
  exists a', h, pay, full, good. split; [exact K2|]. destruct (K4 K) as [m [eat [st [wt [t [f [W1 [W2 [W3 [W4 [W5 _]]]]]]]]]]].
  destruct (finish_alone s m eat st wt t nm f W1 W2 W3 (proj2 W5)) as [ops' [ev [s' [F1 [F2 [F3 [F4 [ev' ->]]]]]]]].
  exists ops', ev', s'. split; [exact F1|]. split; [|exact F3]. rewrite W4 in *. lia.
Qed.
Lemma good_payload_lemma n min ops s tr a p nm h bs b : 0 < n -> sh_run ops (sh_init n min true) = Some (s, tr) ->
  tr = a ++ EvDeliver p nm h bs :: b -> (forall x g pay full good, In (EvWritten x g pay full good) tr -> good = true) ->
  exists full, In (EvWritten nm h bs full true) a.
Proof.
  intros P R E G. destruct (delivered_lemma n min ops s tr a p nm h bs b P R E) as [[pay [full [good [I [_ Q]]]]] _].
  assert (good = true). { apply (G nm h pay full). rewrite E. apply in_or_app. left. exact I. }
  subst good. rewrite (Q eq_refl). exists full. exact I.
Qed.
