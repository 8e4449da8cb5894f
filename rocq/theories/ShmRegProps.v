(** Properties C05 and C54: registration over shared memory. *)
From Verif Require Import Base ShmRegModel ShmRegSpec ShmRegProofs.

(** C05, what holds: reading a batch yields the payload of every process whose newest
    event is an update and whose payload file can be opened and locked, each once,
    whatever happens to the others; and it reports success exactly if none failed. *)
Theorem c05_batch_read_collects_all_readable_partial :
  forall (S : Type) (lock : Z -> bool) (linked : list Z) (store : list (Z * list S)) (opened : list (Z * bool))
         (evs : list (Z * evtype)) (r : bool) (o : list (Z * bool)) (ms : list (list S)),
    rd_loop lock linked store [] opened evs = (r, o, ms) ->
    ms = map (fun e => content store (fst e)) (filter (readable lock linked opened) (newest [] evs)) /\
    (r = true <-> forall id ty, In (id, ty) (newest [] evs) ->
        match ty with EvRemoved => True | EvUpdated => openable linked opened id = true /\ lock id = true
                    | EvCreated => aget id opened <> None \/ In id linked end).
Proof. exact @readable_lemma. Qed.
Print Assumptions c05_batch_read_collects_all_readable_partial.

Example c05_case :
  rd_loop (fun _ => true) [1; 3]%Z [(1, [10]); (2, [20]); (3, [30])]%Z [] [(1, true)]%Z
          [(3, EvUpdated); (2, EvUpdated); (1, EvUpdated); (3, EvCreated)]%Z
  = (false, [(1, true); (3, true); (2, false)], [[30]; [10]])%Z.
Proof. reflexivity. Qed.

(** C05 is false of the receiver as a whole: process 1 sends the list [1], stays
    alive and sends nothing else; process 2 starts and ends around the poll; the poll
    that would have delivered the list delivers nothing. *)
Theorem c05_one_unreadable_payload_hides_the_others_refuted :
  exists h : list (ssop nat),
    h = [SBind 1 10; SSnapshot; SProcess (fun _ => true); SWrite 1 [1] 11 true; SBind 2 20;
         SSnapshot; SUnbind 2; SProcess (fun _ => true)] /\
    ss_applied (ss_run sz1 ss_init h) = [].
Proof. exact (ex_intro _ _ (conj eq_refl hidden_lemma)). Qed.
Print Assumptions c05_one_unreadable_payload_hides_the_others_refuted.

(** C54, what holds: if the receiver polls after every action of a sender, it applies
    exactly the samples sent, each once, in order - for any number of senders, any
    sizes (also when payload files have to be replaced), starts and stops. *)
Theorem c54_polling_every_action_delivers_exactly_once_partial :
  forall (S : Type) (sz : list S -> Z), (forall m, 0 <= sz m)%Z ->
  forall l : list (action S),
    NoDup (flat_map action_id l) ->
    ss_applied (ss_run sz ss_init (flat_map polled l)) = sent_lists [] l.
Proof. exact @polled_lemma. Qed.
Print Assumptions c54_polling_every_action_delivers_exactly_once_partial.

Example c54_case :
  let l := [ABind 1 10; AWrite 1 [5] 11; ABind 2 20; AWrite 2 [6; 7] 21; AWrite 1 (repeat 8 11) 12; AUnbind 1; AWrite 1 [9] 13; AWrite 2 [4] 22] in
  NoDup (flat_map (@action_id nat) l) /\ sent_lists [] l = [5; 6; 7] ++ repeat 8 11 ++ [4].
Proof. split; [repeat constructor; cbn; lia|reflexivity]. Qed.

(** C54 is false in general.  First: two lists sent between two polls, the first one
    is lost. *)
Theorem c54_overwritten_list_refuted :
  ss_applied (ss_run sz1 ss_init
    [SBind 1 10; SSnapshot; SProcess (fun _ => true);
     SWrite 1 [1; 2] 11 true; SWrite 1 [3] 12 true; SSnapshot; SProcess (fun _ => true)]) = [3].
Proof. exact overwritten_lemma. Qed.
Print Assumptions c54_overwritten_list_refuted.

(** Second: the last list of a process that ends before the poll is lost. *)
Theorem c54_last_list_of_ending_process_refuted :
  ss_applied (ss_run sz1 ss_init
    [SBind 1 10; SSnapshot; SProcess (fun _ => true);
     SWrite 1 [7] 11 true; SUnbind 1; SSnapshot; SProcess (fun _ => true)]) = [].
Proof. exact farewell_lemma. Qed.
Print Assumptions c54_last_list_of_ending_process_refuted.

(** Third: the lists of two processes in one poll; the samples of the first message
    are applied twice. *)
Theorem c54_samples_applied_twice_refuted :
  ss_applied (ss_run sz1 ss_init
    [SBind 1 10; SBind 2 20; SSnapshot; SProcess (fun _ => true);
     SWrite 1 [1] 11 true; SWrite 2 [2] 21 true; SSnapshot; SProcess (fun _ => true)]) = [2; 2; 1].
Proof. exact repeated_lemma. Qed.
Print Assumptions c54_samples_applied_twice_refuted.
