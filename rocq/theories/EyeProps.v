(** C116: what a monitor sees of other processes. *)
From Verif Require Import Base Sample PbModel PbSpec SerModel SerSpec DscModel DscSpec MonModel MonSpec EyeModel EyeSpec EyeProofs.

(** Whatever the processes do and whatever becomes of their datagrams: with patterns that are well
    formed and clocks that do not go back every run is defined. *)
Theorem c116_always_defined : forall compile ops,
  well_configured compile ops -> (forall p, upwards (ytimes p ops)) -> exists s, yreach compile ops s.
Proof. exact eye_defined. Qed.
Print Assumptions c116_always_defined.
Example c116_defined_case : well_configured y_any y_late /\ upwards (ytimes 2 y_late) /\ ytimes 2 y_late = [1000; 1000; 1001; 2000; 2500]%Z.
Proof. split; [plain|]. split; [vm_compute; repeat split; discriminate|reflexivity]. Qed.

(** Every cycle sends one datagram for the process and one for each of its entities.  They describe
    what there is as it is; a server that does not listen on a port of a protocol switched on sends
    a blank datagram. *)
Theorem c116_cycle : forall compile ops s p c r s',
  ysane ops -> yreach compile ops s -> running s p c r -> yn_step compile (YCollect p) s = DOk s' ->
  exists q out, aget p (yn_procs s) = Some q /\ yn_sent s' = yn_sent s ++ out /\ length out = S (length (yp_objs q)) /\
    (exists m, In m out /\ sm_cmd m = announces KProcess /\ describes_process c r m) /\
    (forall x o, in_process s p x c r o -> exists m, In m out /\ sm_cmd m = announces (kind_of (yo_body o)) /\
       (describes c r o m \/ (blank m /\ exists v, yo_body o = YSrv v /\ ~ all_ears c v))) /\
    (forall m, In m out -> (sm_cmd m = announces KProcess /\ describes_process c r m) \/
       exists x o, in_process s p x c r o /\ sm_cmd m = announces (kind_of (yo_body o)) /\
         (describes c r o m \/ (blank m /\ exists v, yo_body o = YSrv v /\ ~ all_ears c v))).
Proof. exact eye_cycle. Qed.
Print Assumptions c116_cycle.
Example c116_cycle_case : exists s', yn_step y_any (YCollect 1) (y_end y_setup) = DOk s' /\ map sm_cmd (yn_sent s') = map announces [KProcess; KPublisher; KServer].
Proof. eexists. split; vm_compute; reflexivity. Qed.

(** An entity is seen: one cycle of its process, the arrival of its datagram in a process that
    listens and whose filters let it pass, and a look within the timeout. *)
Theorem c116_seen : forall compile ops s a x c r o s', let k := kind_of (yo_body o) in
  ysane ops -> well_configured compile ops -> yreach compile ops s -> in_process s a x c r o -> (forall v, yo_body o = YSrv v -> all_ears c v) ->
  yn_step compile (YCollect a) s = DOk s' ->
  exists i m, nth_error (yn_sent s') i = Some m /\ sm_cmd m = announces k /\ describes c r o m /\
    forall p c' r' t s2 now ents l, running s p c' r' -> listens c' k m -> lets_in compile c' k m ->
      yn_step compile (YHear p i t) s' = DOk s2 -> yfits s2 -> ysteady p (ops ++ [YCollect a; YHear p i t]) now -> (now - yc_timeout c' <= t)%Z ->
      asked k ents -> y_view s2 p now ents = Some l -> exists n e, In e (rows k l) /\ shows n m e.
Proof. exact eye_seen. Qed.
Print Assumptions c116_seen.
Example c116_seen_case : y_rows y_seen 2 1001 = Some [[str "a11"]; [str "t100"]; []; [str "s20011"]; []].
Proof. vm_compute. reflexivity. Qed.

(** Nothing is made up: an entry shows a datagram that this process was handed within the timeout, to
    which it listens and which its filters let pass, and which told what was so when it was sent. *)
Theorem c116_true : forall compile ops s p c r now ents k l e,
  ysane ops -> well_configured compile ops -> yreach compile ops s -> yfits s -> ysteady p ops now ->
  running s p c r -> y_view s p now ents = Some l -> In e (rows k l) ->
  asked k ents /\ exists n t m, handed compile [] ops p t m /\ (now - yc_timeout c <= t)%Z /\ sm_cmd m = announces k /\ listens c k m /\
    lets_in compile c k m /\ was_so compile ops k m /\ shows n m e /\ row_label e = label k m.
Proof. exact eye_true. Qed.
Print Assumptions c116_true.
Example c116_true_case : y_run_of y_seen (y_end y_seen) 2 1001 (y_list y_seen 2 1001) /\ length (rows KPublisher (y_list y_seen 2 1001)) = 1.
Proof. split; [exact run_seen|vm_compute; reflexivity]. Qed.

(** It stays listed while the timeout lasts and no withdrawal under its label is heard, with this or
    a later datagram under its label. *)
Theorem c116_stays : forall compile ops1 p i t ops2 s1 s c r now m k,
  ysane (ops1 ++ YHear p i t :: ops2) -> well_configured compile (ops1 ++ YHear p i t :: ops2) -> ysteady p (ops1 ++ YHear p i t :: ops2) now ->
  yreach compile ops1 s1 -> yreach compile (ops1 ++ YHear p i t :: ops2) s -> yfits s -> running s1 p c r -> lives p ops2 ->
  nth_error (yn_sent s1) i = Some m -> of_kind k m -> listens c k m ->
  forall ents l, sm_cmd m = announces k -> lets_in compile c k m -> (now - yc_timeout c <= t)%Z -> asked k ents ->
  (forall t' m', handed compile (ops1 ++ [YHear p i t]) ops2 p t' m' -> sm_cmd m' = withdraws k -> listens c k m' -> label k m' <> label k m) ->
  y_view s p now ents = Some l ->
  exists e n m' t', In e (rows k l) /\ row_label e = label k m /\ shows n m' e /\ (t <= t')%Z /\ sm_cmd m' = announces k /\ label k m' = label k m /\
    (m' = m \/ handed compile (ops1 ++ [YHear p i t]) ops2 p t' m').
Proof. exact eye_stays. Qed.
Print Assumptions c116_stays.
Example c116_stays_case : y_rows y_seen 2 6000 = Some [[str "a11"]; [str "t100"]; []; [str "s20011"]; []] /\ y_rows y_seen 2 6001 = Some [[]; []; []; [str "s20011"]; []].
Proof. split; vm_compute; reflexivity. Qed.

(** There is one entry under a label. *)
Theorem c116_once : forall compile ops s p now ents k l,
  well_configured compile ops -> yreach compile ops s -> ysteady p ops now -> y_view s p now ents = Some l -> NoDup (map row_label (rows k l)).
Proof. exact eye_once. Qed.
Print Assumptions c116_once.
Example c116_once_case : y_run_of y_gone (y_end y_gone) 2 2000 (y_list y_gone 2 2000) /\ map row_label (rows KServer (y_list y_gone 2 2000)) = [str "s20011"].
Proof. split; [exact run_gone|vm_compute; reflexivity]. Qed.

(** An entity that ends says so, once, under the label of its registrations and to those who listen to
    them; and it is not announced any more. *)
Theorem c116_ends : forall compile ops s p x c r o s',
  yreach compile ops s -> in_process s p x c r o -> yn_run compile [YEnd p x; YFlush p] s = DOk s' -> let k := kind_of (yo_body o) in
  (exists out m, yn_sent s' = yn_sent s ++ out ++ [m] /\ sm_cmd m = withdraws k /\
     forall m0, describes c r o m0 -> label k m = label k m0 /\ forall c', listens c' k m <-> listens c' k m0) /\
  (forall c' r' o', ~ in_process s' p x c' r' o') /\ (forall s'', yn_step compile (YFlush p) s' = DOk s'' -> yn_sent s'' = yn_sent s').
Proof. exact eye_ends. Qed.
Print Assumptions c116_ends.
Example c116_ends_case : map sm_cmd (yn_sent (y_end (y_seen ++ [YEnd 1 0; YFlush 1]))) = [announces KProcess; announces KPublisher; announces KServer; withdraws KPublisher].
Proof. vm_compute. reflexivity. Qed.

(** A process that ends in an orderly way says so, too. *)
Theorem c116_stops : forall compile ops s p c r s',
  yreach compile ops s -> running s p c r -> yn_run compile [YStop p; YFlush p] s = DOk s' ->
  exists out m, yn_sent s' = yn_sent s ++ out ++ [m] /\ sm_cmd m = withdraws KProcess /\
     forall m0, describes_process c r m0 -> label KProcess m = label KProcess m0 /\ forall c', listens c' KProcess m <-> listens c' KProcess m0.
Proof. exact eye_stops. Qed.
Print Assumptions c116_stops.
Example c116_stops_case : map sm_cmd (yn_sent (y_end y_last)) = [announces KProcess; announces KPublisher; announces KServer; withdraws KProcess].
Proof. vm_compute. reflexivity. Qed.

(** It is gone when its withdrawal is heard and nothing is announced under its label since. *)
Theorem c116_gone : forall compile ops1 p i t ops2 s1 s c r now m k,
  ysane (ops1 ++ YHear p i t :: ops2) -> well_configured compile (ops1 ++ YHear p i t :: ops2) -> ysteady p (ops1 ++ YHear p i t :: ops2) now ->
  yreach compile ops1 s1 -> yreach compile (ops1 ++ YHear p i t :: ops2) s -> yfits s -> running s1 p c r -> lives p ops2 ->
  nth_error (yn_sent s1) i = Some m -> of_kind k m -> listens c k m ->
  forall ents l, sm_cmd m = withdraws k ->
  (forall t' m', handed compile (ops1 ++ [YHear p i t]) ops2 p t' m' -> sm_cmd m' = announces k -> listens c k m' -> lets_in compile c k m' -> label k m' <> label k m) ->
  y_view s p now ents = Some l -> forall e, In e (rows k l) -> row_label e <> label k m.
Proof. exact eye_gone. Qed.
Print Assumptions c116_gone.
Example c116_gone_case : y_rows y_gone 2 2000 = Some [[str "a11"]; []; []; [str "s20011"]; []].
Proof. vm_compute. reflexivity. Qed.

(** Wrong: a publisher whose withdrawal the monitor has heard stays away.  A registration of it
    that was sent before and arrives after the withdrawal lists it again for the whole timeout,
    although it does not exist any more and nobody has sent anything since: registrations carry
    neither a number nor a time. *)
Theorem c116_late_refuted : exists ops1 i t m ops2 s1 s now l e, y_run_of (ops1 ++ YHear 2 i t :: ops2) s 2 now l /\ yreach y_any ops1 s1 /\
  nth_error (yn_sent s1) i = Some m /\ sm_cmd m = withdraws KPublisher /\ (exists c r, running s1 2 c r /\ listens c KPublisher m) /\ hushed ops2 /\
  (forall a x c r o, in_process s a x c r o -> yo_id o <> sm_entity m) /\ In e (rows KPublisher l) /\ row_label e = label KPublisher m.
Proof. exact eye_late. Qed.
Print Assumptions c116_late_refuted.

(** Wrong: once the monitor has heard of the present state of a process it shows that state.  A
    registration that was sent before and arrives later replaces it, so that a process that has
    reported a failure is shown as healthy. *)
Theorem c116_stale_refuted : exists ops s now l t m c r d e, y_run_of ops s 2 now l /\ running s 1 c r /\ handed y_any [] ops 2 t m /\ describes_process c r m /\
  sm_cmd m = announces KProcess /\ (exists c' r', running s 2 c' r' /\ listens c' KProcess m) /\
  In (EProcess e) (rows KProcess l) /\ e = (yc_host c, yc_pid c, d) /\ pr_pname d = yc_pname c /\ pr_info d <> pr_info r.
Proof. exact eye_stale. Qed.
Print Assumptions c116_stale_refuted.

(** Wrong: every process the monitor has heard of has an entry.  Two processes of the same name and
    process id on different hosts (containers: every main process has id 1) share one, which
    shows whichever was heard last. *)
Theorem c116_twins_refuted : exists ops s now l c1 r1 c2 r2 m1 m2, y_run_of ops s 3 now l /\ running s 1 c1 r1 /\ running s 2 c2 r2 /\ yc_host c1 <> yc_host c2 /\
  handed y_any [] ops 3 now m1 /\ describes_process c1 r1 m1 /\ sm_cmd m1 = announces KProcess /\ handed y_any [] ops 3 now m2 /\ describes_process c2 r2 m2 /\ sm_cmd m2 = announces KProcess /\
  (exists c r, running s 3 c r /\ listens c KProcess m1 /\ listens c KProcess m2) /\ (exists e, rows KProcess l = [e]).
Proof. exact eye_twins. Qed.
Print Assumptions c116_twins_refuted.

(** Wrong: every server listed exists.  A server that could not open the port of one of the two
    protocols registers with a blank sample; a monitor on another host lists a server without name,
    host, process and id, and does not list the server, which can be called on its other port. *)
Theorem c116_mute_refuted : exists ops s now l host pid id v, y_run_of ops s 2 now l /\ In (EServer (host, pid, id, v)) (rows KServer l) /\
  (forall a x c r o, in_process s a x c r o -> yc_host c <> host /\ yc_pid c <> pid /\ yo_id o <> id /\ yo_name o <> sv_sname v) /\
  exists a x c r o w, in_process s a x c r o /\ yo_body o = YSrv w /\ yc_v0 c = true /\ sv_port0 w <> 0%Z.
Proof. exact eye_mute. Qed.
Print Assumptions c116_mute_refuted.

(** Wrong: without network mode a monitor sees all of its host group.  Between two hosts of one host
    group it lists publishers and subscribers but neither processes nor servers and clients: for
    these the host name is taken for the host group. *)
Theorem c116_group_refuted : exists ops s now l c1 r1 c2 r2 m o m', y_run_of ops s 2 now l /\ running s 1 c1 r1 /\ running s 2 c2 r2 /\ yc_group c1 = yc_group c2 /\ yc_group c1 <> [] /\
  handed y_any [] ops 2 now m /\ describes_process c1 r1 m /\ sm_cmd m = announces KProcess /\
  in_process s 1 1 c1 r1 o /\ handed y_any [] ops 2 now m' /\ describes c1 r1 o m' /\ sm_cmd m' = announces KServer /\
  rows KProcess l = [] /\ rows KServer l = [] /\ exists e, rows KPublisher l = [e].
Proof. exact eye_group. Qed.
Print Assumptions c116_group_refuted.
