(** Properties C01 and C02: expiring listings. *)
From Verif Require Import Base ExpMapModel ExpMapSpec ExpMapProofs.

(** C01, memory safety: no history ever follows a dangling iterator, and the
    listing never holds a key twice. *)
Theorem c01_no_dangling_iterator :
  forall (K V : Type) (E : EqDec K) (dflt : V) (os : list (emop K V)) (timeout : Z),
    exists s, em_run dflt os (em_new timeout) = Some s /\ NoDup (map fst (em_contents s)).
Proof.
  exact (fun K V E dflt os timeout =>
    match run_no_ub dflt os (em_new timeout) (inv0_new timeout) with
    | ex_intro _ s (conj Hr HI) => ex_intro _ s (conj Hr (contents_nodup s HI))
    end).
Qed.
Print Assumptions c01_no_dangling_iterator.

(** C01: after every history, what a look-up returns is exactly what the
    specification lists. *)
Theorem c01_listing_refines_spec :
  forall (K V : Type) (E : EqDec K) (dflt : V) (os : list (emop K V)) (t0 timeout : Z),
    no_insert os -> clock_from t0 os ->
    exists s, em_run dflt os (em_new timeout) = Some s /\
      forall k, em_find k s =
        match a_list (spec_run dflt os (spec_new timeout)) k with Some (v, _) => Some v | None => None end.
Proof. exact @find_refines. Qed.
Print Assumptions c01_listing_refines_spec.

(** C01, alive: a key announced at [t] is listed with the announced value as long
    as nothing withdrew or re-announced it and every purge ran within the timeout. *)
Theorem c01_announced_in_time_is_listed :
  forall (K V : Type) (E : EqDec K) (dflt : V) (h1 h2 : list (emop K V)) (t0 timeout : Z) (k : K) (f : V -> V) (t : Z),
    let h := h1 ++ OIndex t k f :: h2 in
    no_insert h -> clock_from t0 h -> (forall tt, ~ In (OSetExpiration tt) h) ->
    (forall o, In o h2 -> touches k o = false) ->
    (forall now, In (OExpire now) h2 -> (now - timeout <= t)%Z) ->
    exists s s1, em_run dflt h (em_new timeout) = Some s /\ em_run dflt h1 (em_new timeout) = Some s1 /\
       em_find k s = Some (f (match em_find k s1 with Some v => v | None => dflt end)).
Proof. exact @alive_lemma. Qed.
Print Assumptions c01_announced_in_time_is_listed.

(** C01, gone: whatever is listed right after a purge was announced at most one
    timeout before the purge and not withdrawn since. *)
Theorem c01_listed_after_purge_was_announced_in_time :
  forall (K V : Type) (E : EqDec K) (dflt : V) (os : list (emop K V)) (t0 timeout now : Z),
    no_insert os -> clock_from t0 (os ++ [OExpire now]) -> (forall tt, ~ In (OSetExpiration tt) os) ->
    exists s, em_run dflt (os ++ [OExpire now]) (em_new timeout) = Some s /\
      forall k v, em_find k s = Some v ->
        exists h1 t f h2, os = h1 ++ OIndex t k f :: h2 /\ (forall o, In o h2 -> touches k o = false) /\
                          (now - timeout <= t)%Z.
Proof. exact @gone_lemma. Qed.
Print Assumptions c01_listed_after_purge_was_announced_in_time.

(** C01: the keys a purge reports are exactly the ones it removed, each once. *)
Theorem c01_purge_reports_exactly_the_removed_keys :
  forall (K V : Type) (E : EqDec K) (dflt : V) (os : list (emop K V)) (t0 timeout now : Z),
    no_insert os -> clock_from t0 (os ++ [OExpire now]) ->
    exists s s' out, em_run dflt os (em_new timeout) = Some s /\ em_erase_expired now s = (s', out) /\
      NoDup out /\ forall k, In k out <-> (em_find k s <> None /\ em_find k s' = None).
Proof. exact @expired_keys_lemma. Qed.
Print Assumptions c01_purge_reports_exactly_the_removed_keys.

(** A history meeting all hypotheses: key 1 is refreshed, key 2 expires. *)
Definition c01_history : list (emop nat nat) :=
  [OIndex 0 1 (fun _ => 10); OIndex 3 2 (fun _ => 20); OIndex 8 1 (fun v => v + 1); OFind 2].
Example c01_hypotheses_met :
  no_insert c01_history /\ clock_from 0 (c01_history ++ [OExpire 14]) /\
  (forall tt, ~ In (OSetExpiration tt) c01_history) /\
  exists s, em_run 0 (c01_history ++ [OExpire 14]) (em_new 10) = Some s /\
            em_find 1 s = Some 11 /\ em_find 2 s = None.
Proof.
  split; [|split; [|split]].
  - intros now k v Hin; cbn in Hin; intuition discriminate.
  - cbn; lia.
  - intros tt Hin; cbn in Hin; intuition discriminate.
  - eexists; repeat split; reflexivity.
Qed.

(** C02 is false of the code: a key inserted twice and then refreshed is removed by
    a purge that runs within the timeout of the refresh. *)
Theorem c02_insert_then_refresh_refuted :
  forall (K V : Type) (E : EqDec K) (k : K) (v : V),
    exists timeout t1 t2 t3 now, (0 <= t1 <= t2)%Z /\ (t2 <= t3 <= now)%Z /\ (now - timeout <= t3)%Z /\
      exists s, em_run v [OInsert t1 k v; OInsert t2 k v; OIndex t3 k (fun x => x); OExpire now] (em_new timeout) = Some s
                /\ em_find k s = None.
Proof. exact @insert_refuted_lemma. Qed.
Print Assumptions c02_insert_then_refresh_refuted.

(** C02, the part that holds: if the explicit insert is only used for keys that are
    not listed, the listing refines the specification. *)
Theorem c02_fresh_inserts_refine_spec_partial :
  forall (K V : Type) (E : EqDec K) (dflt : V) (os : list (emop K V)) (t0 timeout : Z),
    clock_from t0 os -> inserts_fresh dflt os (spec_new timeout) ->
    exists s, em_run dflt os (em_new timeout) = Some s /\
      forall k, em_find k s =
        match a_list (spec_run dflt os (spec_new timeout)) k with Some (v, _) => Some v | None => None end.
Proof. exact @find_refines_fresh. Qed.
Print Assumptions c02_fresh_inserts_refine_spec_partial.

Example c02_hypotheses_met :
  let h := [OInsert 0 1 10; OInsert 2 2 20; OErase 1; OInsert 4 1 11; OExpire 13] in
  clock_from 0 h /\ inserts_fresh 0 h (spec_new 10) /\
  exists s, em_run 0 h (em_new 10) = Some s /\ em_find 1 s = Some 11 /\ em_find 2 s = None.
Proof. cbn. repeat split; try lia. eexists; repeat split; reflexivity. Qed.
