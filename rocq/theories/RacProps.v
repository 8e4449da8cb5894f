(** Property C119: data shared between threads are protected, and where they are not. *)
From Coq Require Import List Bool Arith.
From Verif Require Import Base RacModel RacSpec RacProofs.
Import ListNotations.

(** Whatever the threads do, and however many there are: a lock that one thread holds exclusively no other
    thread holds. *)
Theorem c119_exclusive sys rs ts i j a b l x y : reaches sys rs ts -> i <> j -> nth_error ts i = Some a -> nth_error ts j = Some b ->
  In (l, x) (th_held a) -> In (l, y) (th_held b) -> x = true /\ y = true.
Proof. exact (excluded sys rs ts i j a b l x y). Qed.
Print Assumptions c119_exclusive.
Example c119_exclusive_case : reaches ecal x_roles x_after /\
  option_map th_held (nth_error x_after 5) = Some [(KRecv, false)] /\ step ecal x_after 6 Go = None /\
  option_map th_held (nth_error x_after 2) = Some [(KIn EPub, true); (KGate EPub, true); (KRun, false)] /\ step ecal x_after 2 Go = None /\
  step ecal x_after 0 Go <> None.
Proof. split; [exact x_reaches|]. repeat (split; [vm_compute; reflexivity|]). vm_compute. discriminate. Qed.

(** The variables of the list are only used by a thread that holds the lock beside them exclusively. *)
Theorem c119_locked rs ts t f l w : In (f, l) locked_by -> reaches ecal rs ts -> In t ts -> access t = Some (f, w) -> holds (th_held t) l.
Proof. exact (locked rs ts t f l w). Qed.
Print Assumptions c119_locked.
Example c119_locked_case : exists t, nth_error x_after 5 = Some t /\ access t = Some (RHash, false) /\ In (RHash, KRecv) locked_by.
Proof. eexists. split; [vm_compute; reflexivity|]. split; [reflexivity|]. repeat (try (now left); right). Qed.

(** The gates are changed by a thread that holds their lock exclusively, and read by one that holds it. *)
Theorem c119_shared rs ts t f l w : In (f, l) read_shared -> reaches ecal rs ts -> In t ts -> access t = Some (f, w) ->
  if w then holds (th_held t) l else holds_some (th_held t) l.
Proof. exact (shared rs ts t f l w). Qed.
Print Assumptions c119_shared.
Example c119_shared_case : exists ts t, runs ecal (map idle x_roles) (map (pair 5) (Begin DData :: to_read (GMap ESub) d_sample)) = Some ts /\
  nth_error ts 5 = Some t /\ access t = Some (GMap ESub, false) /\ th_held t = [(KGate ESub, true)].
Proof. eexists. eexists. split; [vm_compute; reflexivity|]. split; [reflexivity|]. split; reflexivity. Qed.

(** These variables have no lock, and only the one thread of their role uses them. *)
Theorem c119_used rs ts t f r w : In (f, r) used_by -> reaches ecal rs ts -> In t ts -> access t = Some (f, w) -> th_role t = r.
Proof. exact (used rs ts t f r w). Qed.
Print Assumptions c119_used.
Example c119_used_case : exists ts t, runs ecal (map idle x_roles) (map (pair 0) (Begin USend :: to_read SIdx w_send)) = Some ts /\
  nth_error ts 0 = Some t /\ access t = Some (SIdx, false) /\ In (SIdx, 0) used_by.
Proof. eexists. eexists. split; [vm_compute; reflexivity|]. split; [reflexivity|]. split; [reflexivity|]. repeat (try (now left); right). Qed.

(** These are never written once the object is in use. *)
Theorem c119_constant rs ts t f w : In f constant -> reaches ecal rs ts -> In t ts -> access t = Some (f, w) -> w = false.
Proof. exact (never_written rs ts t f w). Qed.
Print Assumptions c119_constant.
Example c119_constant_case : exists ts t, runs ecal (map idle x_roles) (map (pair 0) (Begin USend :: to_read WMeta w_send)) = Some ts /\
  nth_error ts 0 = Some t /\ access t = Some (WMeta, false) /\ In WMeta constant.
Proof. eexists. eexists. split; [vm_compute; reflexivity|]. split; [reflexivity|]. split; [reflexivity|now left]. Qed.

(** These are written only when those who could use them have ended or cannot find the object any more. *)
Theorem c119_at_end rs ts f : In f at_end -> reaches ecal rs ts -> ~ race ts f.
Proof. exact (at_end_safe rs ts f). Qed.
Print Assumptions c119_at_end.
Example c119_at_end_case : exists ts t, runs ecal (map idle [0; 5; 7]) (map (pair 1) (Begin XStop :: match way PSend true (snd (nth 0 (ro_calls ro_end) (XStop, Skip))) with Some p => p | None => [] end)) = Some ts /\
  nth_error ts 1 = Some t /\ access t = Some (PSend, true) /\ th_held t = [(KRun, false)] /\
  runs ecal ts (map (pair 2) (Begin SSend :: to_read PSend (snd (nth 5 (ro_calls ro_send) (SSend, Skip))))) = None.
Proof. eexists. eexists. split; [vm_compute; reflexivity|]. split; [reflexivity|]. split; [reflexivity|]. split; [reflexivity|]. vm_compute. reflexivity. Qed.

(** That is all: every variable is atomic, belongs to one of the classes above, or is in the list of the
    variables that two threads use without a common lock. *)
Theorem c119_classes f : atomic f = true \/ (exists l, In (f, l) locked_by) \/ (exists l, In (f, l) read_shared) \/ (exists r, In (f, r) used_by) \/
  In f constant \/ In f at_end \/ exists c d, In (f, c, d) races.
Proof. exact (classes f). Qed.
Print Assumptions c119_classes.
Example c119_classes_case : length fields = 121 /\ length races = 68 /\ NoDup (map fst locked_by).
Proof. split; [reflexivity|]. split; [reflexivity|]. apply (NoDup_count_occ' fld_dec). intros f H. vm_compute in H. repeat (destruct H as [<-|H]; [vm_compute; reflexivity|]). destruct H. Qed.

(** No other variable is ever used by two threads at the same time, one of them writing. *)
Theorem c119_only rs ts f : reaches ecal rs ts -> race ts f -> exists c d, In (f, c, d) races.
Proof. exact (only_races rs ts f). Qed.
Print Assumptions c119_only.
Example c119_only_case : reaches ecal x_roles x_after /\ (forall c d, ~ In (WSubs, c, d) races) /\ exists t, nth_error x_after 0 = Some t /\ access t = Some (WSubs, false).
Proof.
  split; [exact x_reaches|]. split; [|eexists; split; [vm_compute; reflexivity|reflexivity]].
  intros c d H. vm_compute in H. repeat (destruct H as [H|H]; [discriminate|]). exact H.
Qed.

(** The general rule behind it: if any two accesses to a variable that may happen in two threads have a lock in
    common, and not both hold it shared, there is no race on that variable, in any program of this kind. *)
Theorem c119_rule sys rs ts f : guarded f sys = true -> reaches sys rs ts -> ~ race ts f.
Proof. exact (no_race sys rs ts f). Qed.
Print Assumptions c119_rule.
Example c119_rule_case : guarded WSubs ecal = true /\ guarded WClock ecal = false.
Proof. vm_compute. auto. Qed.

(** The publisher.  The clock, the id and the size of a publisher's topic and the marks of its layers are plain
    variables that the thread which sends writes without a lock, while the registration threads read them for the
    publisher's registration sample.  The writers of the layers (unique pointers) and the marks that they are
    started are set by the thread that receives registration, while the sending thread tests and uses them.  The
    name of the memory file (a string) is rewritten by the sending thread when the file has to grow, while the
    registration threads copy it; and changing the type information or the attributes of a publisher changes
    a string and a map that the registration threads copy. *)
Theorem c119_publisher_refuted f c d : In (f, c, d) pub_races -> collide ecal f c d.
Proof. exact (pub_collide f c d). Qed.
Print Assumptions c119_publisher_refuted.
Example c119_publisher_case : In (FName, USend, SPubs) pub_races /\ In (WPtr LyShm, NSub, USend) pub_races /\ In (WClock, USend, SPubs) pub_races.
Proof. split; [|split]; vm_compute; repeat (try (now left); right). Qed.

(** The subscriber.  [SetID] replaces the set of accepted ids, and [SetAttribute] the map of attributes, while a
    receiving thread searches the one and the registration thread copies the other; the number of dropped messages
    and the marks of the layers are written under the lock of the receive callback and read without it; [Dump]
    reads the buffer (a string) and the time of the last message without the lock of the buffer. *)
Theorem c119_subscriber_refuted f c d : In (f, c, d) sub_races -> collide ecal f c d.
Proof. exact (sub_collide f c d). Qed.
Print Assumptions c119_subscriber_refuted.
Example c119_subscriber_case : In (RIds, USetId, DData) sub_races /\ In (RDrop, DData, SSubs) sub_races.
Proof. split; vm_compute; repeat (try (now left); right). Qed.

(** The reader layers, one object for all subscribers of the process.  Two threads that create or destroy
    subscribers at the same time use the udp layer's flags, its receiver and its map of multicast groups without any
    lock; and with tcp the second one may use the executor while the first one is still creating it, since the mark
    that the layer is initialised is set before. *)
Theorem c119_layers_refuted f c d : In (f, c, d) layer_races -> collide ecal f c d.
Proof. exact (layer_collide f c d). Qed.
Print Assumptions c119_layers_refuted.
Example c119_layers_case : In (UCast, XSubNew, XSubNew) layer_races /\ In (TRun, XSubNew, XSubNew) layer_races.
Proof. split; vm_compute; repeat (try (now left); right). Qed.

(** Services.  The check for services that are gone, run by the registration thread, searches and erases the client's
    map of connected services while it holds the lock of another map, so that it meets a service being registered, or
    [IsConnected].  Stopping the gates of clients and servers holds their locks only shared, and stopping a client or
    server clears its name and id, which the registration threads read with the same lock held shared; and
    destroying a server clears them while its tcp threads copy them into a response. *)
Theorem c119_services_refuted f c d : In (f, c, d) service_races -> collide ecal f c d.
Proof. exact (service_collide f c d). Qed.
Print Assumptions c119_services_refuted.
Example c119_services_case : In (CConn, NService, SClis) service_races /\ In (VName, UDestroy ESrv, TRequest) service_races.
Proof. split; vm_compute; repeat (try (now left); right). Qed.

(** Switches of the whole process.  Enabling the loopback, setting the callbacks for registration samples, the unit
    name, the state of the process, the texts of the monitoring filters and the log level: each is a plain
    variable, text or function object that is set without the lock under which, or without any lock while, the threads
    of the library read it. *)
Theorem c119_globals_refuted f c d : In (f, c, d) global_races -> collide ecal f c d.
Proof. exact (global_collide f c d). Qed.
Print Assumptions c119_globals_refuted.
Example c119_globals_case : In (GState, XState, SProc) global_races /\ In (AUser, XReg, NUser) global_races.
Proof. split; vm_compute; repeat (try (now left); right). Qed.

(** A process that leaves those settings alone, creates its subscribers one after the other before others, and does
    not end its servers and clients, still has races, but only these: on the topic size, id and clock of a
    publisher, its layers' writers and marks, the name and mark of its memory files, the drop counter and layer marks of
    a subscriber, and the connected services of a client. *)
Theorem c119_core rs ts f : reaches (without settings ecal) rs ts -> race ts f -> In f core_races.
Proof. exact (only_core rs ts f). Qed.
Print Assumptions c119_core.
Theorem c119_core_refuted f : In f core_races -> exists c d, collide (without settings ecal) f c d.
Proof. exact (core_collide f). Qed.
Print Assumptions c119_core_refuted.
Example c119_core_case : length core_races = 19 /\ In WClock core_races /\ ~ In WAttr core_races /\ call_of USend (ro_calls (nth 0 (without settings ecal) ro_log)) = Some w_send.
Proof.
  split; [reflexivity|]. split; [do 2 right; now left|]. split; [|reflexivity].
  intros H. vm_compute in H. repeat (destruct H as [H|H]; [discriminate|]). exact H.
Qed.
