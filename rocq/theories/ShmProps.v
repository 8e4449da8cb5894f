(** Properties of shared memory publishing: C17 (ring of buffers), C19 (failed payloads),
    C23 (acknowledgements) and C24 (observers).  A run is any interleaving of the steps of
    one publisher with [n] buffers and of any number of observers; the statements are about
    its sequence of events. *)
From Verif Require Import Base ShmModel ShmSpec ShmProofs.

(** The steps of a complete send, for the processes [ps] connected to the file; the steps
    [mid] happen between the signals and the return. *)
Definition ex_msg (clock ack : Z) (pay : list Z) : msg := Msg 7 clock 0 0 false ack pay.
Definition ex_write (m : msg) (junk : option (list Z)) : list sop := [SPrepare m 0 true; SLock; SHeader; SPayload junk; SRelease].
Definition ex_send (m : msg) (ps : list nat) (mid : list sop) : list sop :=
  ex_write m None ++ (if (m_ack m <=? 0)%Z then [] else map SEat ps) ++ map SSet ps ++ mid ++ [SReturn].
Definition ex_receive (p nm : nat) : list sop :=
  [SWait p nm; SAccess p nm; SReadHdr p nm; SReadPay p nm; SReadEnd p nm; SCall p nm; SAcknowledge p nm].
Definition ex_trace (n : nat) (ops : list sop) : list event := match sh_run ops (sh_init n 4096 true) with Some (_, tr) => tr | None => [] end.

(** * C17 *)
(** C17: with at least one buffer no step of the publisher or of an observer fails. *)
Theorem c17_no_fault_partial : forall n min ops, 0 < n -> sh_run ops (sh_init n min true) <> None.
Proof. exact no_fault_lemma. Qed.
Print Assumptions c17_no_fault_partial.
Example c17_no_fault_case : ex_trace 2 (ex_send (ex_msg 1 0 [1; 2]%Z) [] [] ++ ex_send (ex_msg 2 0 [3]%Z) [] []) =
  [EvBegin 0; EvWritten 0 (Hdr 2 7 1 0 0 false 0) [1; 2]%Z true true; EvReturn true;
   EvBegin 1; EvWritten 1 (Hdr 1 7 2 0 0 false 0) [3]%Z true true; EvReturn true].
Proof. vm_compute. reflexivity. Qed.

(** C17: a message stays in its file, header and payload, until n sends have ended since
    (counting its own) and the next one is under way. *)
Theorem c17_kept : forall n min ops s tr a nm h pay full b, 0 < n -> sh_run ops (sh_init n min true) = Some (s, tr) ->
  tr = a ++ EvWritten nm h pay full true :: b -> (returns b < n \/ (returns b = n /\ s_w s = WIdle)) -> holds s nm h pay.
Proof. exact kept_lemma. Qed.
Print Assumptions c17_kept.
Example c17_kept_case : exists s tr a b,
  sh_run (ex_send (ex_msg 1 0 [1; 2]%Z) [] [] ++ ex_send (ex_msg 2 0 [3]%Z) [] [] ++ [SPrepare (ex_msg 3 0 [4]%Z) 0 true; SLock; SHeader]) (sh_init 3 4096 true) = Some (s, tr) /\
  tr = a ++ EvWritten 0 (Hdr 2 7 1 0 0 false 0) [1; 2]%Z true true :: b /\ returns b < 3.
Proof.
  eexists. eexists. exists [EvBegin 0]. eexists. split; [vm_compute; reflexivity|]. split; [reflexivity|]. vm_compute. lia.
Qed.
(** The bound is sharp: with the next send under way the message is gone. *)
Example c17_kept_bound : exists s tr,
  sh_run (ex_send (ex_msg 1 0 [1; 2]%Z) [] [] ++ [SPrepare (ex_msg 2 0 [3]%Z) 0 true; SLock; SHeader]) (sh_init 1 4096 true) = Some (s, tr) /\
  returns tr = 1 /\ exists f, get_file s 0 = Some f /\ f_hdr f = Hdr 1 7 2 0 0 false 0.
Proof. eexists. eexists. split; [vm_compute; reflexivity|]. split; [reflexivity|]. eexists. split; [vm_compute; reflexivity|reflexivity]. Qed.

(** C17: round robin - less than n sends later another file is written. *)
Theorem c17_other_file : forall n min ops s tr a nm1 h1 pay1 full1 good1 b nm2 h2 pay2 full2 good2 c,
  0 < n -> sh_run ops (sh_init n min true) = Some (s, tr) ->
  tr = a ++ EvWritten nm1 h1 pay1 full1 good1 :: b ++ EvWritten nm2 h2 pay2 full2 good2 :: c -> 0 < returns b < n -> nm1 <> nm2.
Proof. exact other_file_lemma. Qed.
Print Assumptions c17_other_file.
Example c17_other_file_case : map (fun e => match e with EvWritten nm _ _ _ _ => Some nm | _ => None end)
    (filter (fun e => match e with EvWritten _ _ _ _ _ => true | _ => false end)
       (ex_trace 3 (flat_map (fun c => ex_send (ex_msg c 0 [c]) [] []) [1; 2; 3; 4; 5]%Z)))
  = [Some 0; Some 1; Some 2; Some 0; Some 1].
Proof. vm_compute. reflexivity. Qed.

(** C17: with more than one buffer every send asks the payload writer for a complete write. *)
Theorem c17_full_write : forall n min ops s tr nm h pay full good, 1 < n -> sh_run ops (sh_init n min true) = Some (s, tr) ->
  In (EvWritten nm h pay full good) tr -> full = true.
Proof. exact full_lemma. Qed.
Print Assumptions c17_full_write.
(** With one buffer the second write is a modification of the first. *)
Example c17_full_write_case :
  In (EvWritten 0 (Hdr 1 7 2 0 0 false 0) [2]%Z false true) (ex_trace 1 (ex_send (ex_msg 1 0 [1]%Z) [] [] ++ ex_send (ex_msg 2 0 [2]%Z) [] [])) /\
  In (EvWritten 0 (Hdr 1 7 3 0 0 false 0) [3]%Z true true)
     (ex_trace 2 (flat_map (fun c => ex_send (ex_msg c 0 [c]) [] []) [1; 2; 3]%Z)).
Proof. split; vm_compute; tauto. Qed.

(** C17: if a memory file could not be created, the first send divides by zero. *)
Theorem c17_no_files_refuted : forall n min m extra ok ops, sh_run (SPrepare m extra ok :: ops) (sh_init n min false) = None.
Proof. exact no_files_lemma. Qed.
Print Assumptions c17_no_files_refuted.

(** * C24 *)
(** C24: what an observer hands over was written in this file under this header before -
    with exactly these bytes if the payload writer reported success - and its clock is
    above every clock handed over since the observer was started. *)
Theorem c24_delivered_partial : forall n min ops s tr a p nm h bs b, 0 < n -> sh_run ops (sh_init n min true) = Some (s, tr) ->
  tr = a ++ EvDeliver p nm h bs :: b -> written_as a nm h bs /\ Forall (fun c => c < h_clock h)%Z (seen p nm a).
Proof. exact delivered_lemma. Qed.
Print Assumptions c24_delivered_partial.
Definition ex_two_readers : list sop :=
  [SConnect 0 1; SConnect 0 2; SStart 1 0; SStart 2 0] ++
  ex_send (ex_msg 1 50 [1; 2]%Z) [1; 2] (ex_receive 1 0 ++ ex_receive 2 0 ++ [SAcked 1; SAcked 2]) ++
  ex_send (ex_msg 2 50 [3]%Z) [1; 2] (ex_receive 2 0 ++ ex_receive 1 0 ++ [SAcked 1; SAcked 2]).
Example c24_delivered_case :
  filter (fun e => match e with EvDeliver _ _ _ _ => true | _ => false end) (ex_trace 1 ex_two_readers) =
  [EvDeliver 1 0 (Hdr 2 7 1 0 0 false 50) [1; 2]%Z; EvDeliver 2 0 (Hdr 2 7 1 0 0 false 50) [1; 2]%Z;
   EvDeliver 2 0 (Hdr 1 7 2 0 0 false 50) [3]%Z; EvDeliver 1 0 (Hdr 1 7 2 0 0 false 50) [3]%Z] /\
  seen 1 0 (ex_trace 1 ex_two_readers) = [2; 1]%Z.
Proof. split; vm_compute; reflexivity. Qed.

(** C24: an acknowledgement follows the hand over of the message it is for. *)
Theorem c24_ack_after_delivery : forall n min ops s tr a p nm c b, 0 < n -> sh_run ops (sh_init n min true) = Some (s, tr) ->
  tr = a ++ EvAck p nm c :: b -> exists h bs, In (EvDeliver p nm h bs) a /\ h_clock h = c.
Proof. exact ack_lemma. Qed.
Print Assumptions c24_ack_after_delivery.
Example c24_ack_after_delivery_case :
  filter (fun e => match e with EvDeliver 1 _ _ _ | EvAck 1 _ _ => true | _ => false end) (ex_trace 1 ex_two_readers) =
  [EvDeliver 1 0 (Hdr 2 7 1 0 0 false 50) [1; 2]%Z; EvAck 1 0 1; EvDeliver 1 0 (Hdr 1 7 2 0 0 false 50) [3]%Z; EvAck 1 0 2].
Proof. vm_compute. reflexivity. Qed.

(** C24: an observer that was stopped and started again hands over a message a second time. *)
Theorem c24_restart_refuted : exists ops s tr a b c h bs, sh_run ops (sh_init 1 4096 true) = Some (s, tr) /\
  tr = a ++ EvDeliver 1 0 h bs :: b ++ EvDeliver 1 0 h bs :: c.
Proof.
  exists ([SConnect 0 1; SStart 1 0] ++ ex_send (ex_msg 1 0 [1]%Z) [1] [SWait 1 0] ++ ex_send (ex_msg 2 0 [2]%Z) [1] [] ++
          ex_receive 1 0 ++ [SStop 1 0; SStart 1 0] ++ ex_receive 1 0).
  eexists. eexists.
  exists [EvConnect 0 1; EvStart 1 0; EvBegin 0; EvWritten 0 (Hdr 1 7 1 0 0 false 0) [1]%Z true true; EvReturn true;
          EvBegin 0; EvWritten 0 (Hdr 1 7 2 0 0 false 0) [2]%Z false true; EvReturn true; EvRead 1 0 (Hdr 1 7 2 0 0 false 0)].
  exists [EvDone 1 0; EvStart 1 0; EvRead 1 0 (Hdr 1 7 2 0 0 false 0)], [EvDone 1 0], (Hdr 1 7 2 0 0 false 0), [2]%Z.
  split; vm_compute; reflexivity.
Qed.
Print Assumptions c24_restart_refuted.

(** * C19 *)
(** C19: if no payload writer fails, the bytes handed over are the payload of the message. *)
Theorem c19_good_payload_partial : forall n min ops s tr a p nm h bs b, 0 < n -> sh_run ops (sh_init n min true) = Some (s, tr) ->
  tr = a ++ EvDeliver p nm h bs :: b -> (forall x g pay full good, In (EvWritten x g pay full good) tr -> good = true) ->
  exists full, In (EvWritten nm h bs full true) a.
Proof. exact good_payload_lemma. Qed.
Print Assumptions c19_good_payload_partial.
Example c19_good_payload_case : exists full, In (EvWritten 0 (Hdr 1 7 2 0 0 false 50) [3]%Z full true) (ex_trace 1 ex_two_readers).
Proof. exists false. vm_compute. tauto. Qed.

(** C19: a payload that could not be produced is published: the send returns true and the
    observer hands over what happens to be in memory. *)
Theorem c19_failed_payload_refuted : exists ops s tr h bs pay full, sh_run ops (sh_init 1 4096 true) = Some (s, tr) /\
  tr = [EvConnect 0 1; EvStart 1 0; EvBegin 0; EvWritten 0 h pay full false; EvReturn true; EvRead 1 0 h; EvDeliver 1 0 h bs; EvDone 1 0] /\
  bs <> pay.
Proof.
  exists ([SConnect 0 1; SStart 1 0] ++ ex_write (ex_msg 1 0 [1; 2; 3]%Z) (Some [1; 99]%Z) ++ [SSet 1; SReturn] ++ ex_receive 1 0).
  eexists. eexists. exists (Hdr 3 7 1 0 0 false 0), [1; 99; 0]%Z, [1; 2; 3]%Z, true. split; [vm_compute; reflexivity|]. split; [reflexivity|discriminate].
Qed.
Print Assumptions c19_failed_payload_refuted.

(** * C23 *)
(** C23: a send with acknowledgements enters the waiting right after the write. *)
Theorem c23_send_waits : forall n min ops s tr a nm h pay full good b, 0 < n -> sh_run ops (sh_init n min true) = Some (s, tr) ->
  tr = a ++ EvWritten nm h pay full good :: b -> (0 < h_ack h)%Z -> exists t w b', b = EvSync nm t w :: b'.
Proof. exact synced_lemma. Qed.
Print Assumptions c23_send_waits.

(** C23: the processes waited for are the ones connected to the file that have not timed
    out since; when the send returns each of them has sent an acknowledgement since the
    write, or the configured time has passed. *)
Theorem c23_waits_for_responsive_partial : forall n min ops s tr a nm t0 waited b1 ok b2, 0 < n -> sh_run ops (sh_init n min true) = Some (s, tr) ->
  tr = a ++ EvSync nm t0 waited :: b1 ++ EvReturn ok :: b2 -> returns b1 = 0 ->
  (forall p, In p waited <-> valid nm p a = true) /\
  exists a' h pay full good, a = a' ++ [EvWritten nm h pay full good] /\ (0 < h_ack h)%Z /\
    forall p, In p waited -> (exists c, In (EvAck p nm c) b1) \/ (exists t, In (EvTimedOut nm p t) b1 /\ (t0 + h_ack h <= t)%Z).
Proof. exact waits_lemma. Qed.
Print Assumptions c23_waits_for_responsive_partial.
(** One reader acknowledges, the other times out; the next send waits for the first only. *)
Definition ex_slow : list sop :=
  [SConnect 0 1; SConnect 0 2; SStart 1 0] ++
  ex_send (ex_msg 1 50 [1; 2]%Z) [1; 2] (ex_receive 1 0 ++ [SAcked 1; STick 60; SAckTimeout 2]) ++
  ex_send (ex_msg 2 50 [3]%Z) [1; 2] (ex_receive 1 0 ++ [SAcked 1; SSkip 2]).
Example c23_waits_for_responsive_case :
  filter (fun e => match e with EvSync _ _ _ | EvAck _ _ _ | EvTimedOut _ _ _ | EvReturn _ => true | _ => false end) (ex_trace 1 ex_slow) =
  [EvSync 0 0 [1; 2]; EvAck 1 0 1; EvTimedOut 0 2 60; EvReturn true; EvSync 0 60 [1]; EvAck 1 0 2; EvReturn true].
Proof. vm_compute. reflexivity. Qed.

(** C23: an acknowledgement sent during a send is one for its message, if the reader was
    not busy with an earlier message when the send got access to the file. *)
Theorem c23_acknowledges_this_message_partial : forall n min ops s tr a nm b h pay full good p c, 0 < n -> sh_run ops (sh_init n min true) = Some (s, tr) ->
  tr = a ++ EvBegin nm :: b -> returns b = 0 -> In (EvWritten nm h pay full good) b -> busy p nm a = false ->
  In (EvAck p nm c) b -> c = h_clock h.
Proof. exact right_ack_lemma. Qed.
Print Assumptions c23_acknowledges_this_message_partial.
Example c23_acknowledges_this_message_case : exists s b,
  sh_run ([SConnect 0 1; SStart 1 0] ++ ex_write (ex_msg 5 50 [1]%Z) None ++ [SEat 1; SSet 1] ++ ex_receive 1 0) (sh_init 1 4096 true)
   = Some (s, [EvConnect 0 1; EvStart 1 0] ++ EvBegin 0 :: b) /\
  busy 1 0 [EvConnect 0 1; EvStart 1 0] = false /\ In (EvAck 1 0 5) b.
Proof. eexists. eexists. split; [vm_compute; reflexivity|]. split; [reflexivity|]. vm_compute. tauto. Qed.

(** C23: whatever the readers do or do not do, the waiting publisher can return by its own
    steps after at most the configured time. *)
Theorem c23_returns_alone : forall n min ops s tr a nm t0 waited b, 0 < n -> sh_run ops (sh_init n min true) = Some (s, tr) ->
  tr = a ++ EvSync nm t0 waited :: b -> returns b = 0 ->
  exists a' h pay full good, a = a' ++ [EvWritten nm h pay full good] /\
  exists ops' ev s', forallb waiting_op ops' = true /\ (elapsed ops' <= h_ack h)%Z /\ sh_run ops' s = Some (s', ev ++ [EvReturn true]).
Proof. exact returns_alone_lemma. Qed.
Print Assumptions c23_returns_alone.

(** C23: the acknowledgement of an earlier message is taken for this one: the send returns
    without any timeout although the reader waited for never got the message. *)
Theorem c23_old_acknowledgement_refuted : exists ops s tr a h waited b t0, sh_run ops (sh_init 1 4096 true) = Some (s, tr) /\
  tr = a ++ [EvWritten 0 h [2]%Z false true; EvSync 0 t0 waited] ++ b ++ [EvReturn true] /\ In 1 waited /\
  forallb (fun e => match e with EvTimedOut _ _ _ => false | EvReturn _ => false | _ => true end) b = true /\
  forallb (fun e => match e with EvDeliver 1 0 g _ => negb (Z.eqb (h_clock g) (h_clock h)) | _ => true end) tr = true.
Proof.
  exists ([SConnect 0 1; SStart 1 0] ++
    ex_send (ex_msg 1 50 [1]%Z) [1] [SWait 1 0; SAccess 1 0; SReadHdr 1 0; SReadPay 1 0; SReadEnd 1 0; STick 50; SAckTimeout 1] ++
    [SConnect 0 1] ++
    ex_send (ex_msg 2 50 [2]%Z) [1] [SCall 1 0; SAcknowledge 1 0; SAcked 1]).
  eexists. eexists.
  exists [EvConnect 0 1; EvStart 1 0; EvBegin 0; EvWritten 0 (Hdr 1 7 1 0 0 false 50) [1]%Z true true; EvSync 0 0 [1]; EvAte 0 1;
          EvRead 1 0 (Hdr 1 7 1 0 0 false 50); EvTimedOut 0 1 50; EvReturn true; EvConnect 0 1; EvBegin 0].
  exists (Hdr 1 7 2 0 0 false 50), [1], [EvAte 0 1; EvDeliver 1 0 (Hdr 1 7 1 0 0 false 50) [1]%Z; EvAck 1 0 1; EvDone 1 0; EvAcked 0 1], 50%Z.
  split; [vm_compute; reflexivity|]. split; [reflexivity|]. split; [left; reflexivity|]. split; reflexivity.
Qed.
Print Assumptions c23_old_acknowledgement_refuted.

(** C23: a reader that timed out is waited for again, without having connected again, as
    soon as the file is replaced by a larger one. *)
Theorem c23_waited_for_again_refuted : exists ops1 ops2 s1 tr1 s2 tr2, sh_run ops1 (sh_init 1 4096 true) = Some (s1, tr1) /\
  sh_run ops2 s1 = Some (s2, tr2) /\ forallb (fun op => match op with SConnect _ _ => false | _ => true end) ops2 = true /\
  In (EvTimedOut 0 1 50) tr1 /\ In (EvSync 1 50 [1]) tr2.
Proof.
  exists ([SConnect 0 1] ++ ex_send (ex_msg 1 50 [1]%Z) [1] [STick 50; SAckTimeout 1]).
  exists (ex_write (ex_msg 2 50 (repeat 5%Z 5000)) None).
  eexists. eexists. eexists. eexists. split; [vm_compute; reflexivity|]. split; [vm_compute; reflexivity|]. split; [reflexivity|].
  split; vm_compute; tauto.
Qed.
Print Assumptions c23_waited_for_again_refuted.

(** C23: an acknowledgement of this very message is lost and the reader times out, if the
    reader was woken by an older signal. *)
Theorem c23_acknowledgement_lost_refuted : exists ops s tr a h waited b t0, sh_run ops (sh_init 1 4096 true) = Some (s, tr) /\
  tr = a ++ [EvWritten 0 h [2]%Z false true; EvSync 0 t0 waited] ++ b ++ [EvTimedOut 0 1 100; EvReturn true] /\ In 1 waited /\
  In (EvDeliver 1 0 h [2]%Z) b /\ In (EvAck 1 0 (h_clock h)) b.
Proof.
  exists ([SConnect 0 1; SStart 1 0] ++
    ex_send (ex_msg 1 50 [1]%Z) [1] [STick 50; SAckTimeout 1] ++ [SConnect 0 1] ++
    ex_write (ex_msg 2 50 [2]%Z) None ++ ex_receive 1 0 ++ [SEat 1; SSet 1] ++ ex_receive 1 0 ++ [STick 50; SAckTimeout 1; SReturn]).
  eexists. eexists.
  exists [EvConnect 0 1; EvStart 1 0; EvBegin 0; EvWritten 0 (Hdr 1 7 1 0 0 false 50) [1]%Z true true; EvSync 0 0 [1]; EvAte 0 1;
          EvTimedOut 0 1 50; EvReturn true; EvConnect 0 1; EvBegin 0].
  exists (Hdr 1 7 2 0 0 false 50), [1],
    [EvRead 1 0 (Hdr 1 7 2 0 0 false 50); EvDeliver 1 0 (Hdr 1 7 2 0 0 false 50) [2]%Z; EvAck 1 0 2; EvDone 1 0; EvAte 0 1], 50%Z.
  split; [vm_compute; reflexivity|]. split; [reflexivity|]. split; [left; reflexivity|]. split; cbn; tauto.
Qed.
Print Assumptions c23_acknowledgement_lost_refuted.
