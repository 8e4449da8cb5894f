(** * Lck: vocabulary of the statements *)

From Coq Require Import List Bool Arith Lia.
From Verif Require Import Base LckModel.
Import ListNotations.

(** ** Three sets of rules for the callbacks of the user

    - [SubsUsePubs]: the library is not finalized; events of subscribers may use
      publishers.
    - [PubsUseSubs]: the library is not finalized; events of publishers may use
      subscribers.
    - [WithFinalize]: the library may be finalized at any time. *)
Inductive plan : Type := SubsUsePubs | PubsUseSubs | WithFinalize.

Definition of_publisher (k : call) : bool :=
  match k with
  | CreatePub _ | DestroyPub _ | Send _ _ _ | SetPubEvent _ | RemPubEvent _ | IsSubscribed _ => true
  | _ => false
  end.

Definition asks_subscriber (k : call) : bool :=
  match k with
  | SetSubEvent _ | RemSubEvent _ | IsPublished _ => true
  | _ => false
  end.

Definition creates_subscriber (k : call) : bool :=
  match k with CreateSub _ => true | _ => false end.

Definition harmless (k : call) : bool :=
  match k with WriteLog | ReadNow _ => true | _ => false end.

Definition never (k : call) : bool :=
  match k with SetCustomer | Finalize _ _ => true | _ => false end.

(** [may p c k]: under the rules [p], callback [c] may make the call [k]. *)
Definition may (p : plan) (c : cbk) (k : call) : bool :=
  match c with
  | KReg => negb (never k)
  | KRecv _ =>
      harmless k || of_publisher k || asks_subscriber k
      || (creates_subscriber k && match p with WithFinalize => false | _ => true end)
  | KConn _ | KDisc _ | KDropped _ =>
      harmless k || (of_publisher k && match p with PubsUseSubs => false | _ => true end)
  | KWConn _ | KWDisc _ =>
      harmless k || ((asks_subscriber k || creates_subscriber k)
                     && match p with PubsUseSubs => true | _ => false end)
  end.

(** The callbacks a tree calls, in order. *)
Fixpoint holes (b : blk) : list cbk :=
  match b with
  | Skip => []
  | Seq a b' => holes a ++ holes b'
  | With _ _ body => holes body
  | Hole c => [c]
  | Inside _ _ => []
  end.

Definition keeps (p : plan) (w : work) : Prop :=
  match w with
  | Api (Finalize _ _) => p = WithFinalize
  | Api _ => True
  | Job j beh =>
      forall c ks, In (c, ks) (combine (holes (job_blk j)) beh) -> forall k, In k ks -> may p c k = true
  end.

(** All threads that appear keep to the rules. *)
Definition event_keeps (p : plan) (e : evt) : Prop :=
  match e with
  | Run _ => True
  | Spawn l => Forall (keeps p) l
  end.

Definition done (t : thr) : Prop := todo t = [] /\ has t = [].

(** [steps wf ns s s']: the threads [ns], one after the other, each execute one
    instruction. *)
Inductive steps (wf : bool) : list nat -> sys -> sys -> Prop :=
| steps_nil : forall s, steps wf [] s s
| steps_cons : forall n ns s s1 s2, step wf n s = Some s1 -> steps wf ns s1 s2 -> steps wf (n :: ns) s s2.

Definition blocked (wf : bool) (s : sys) : Prop := forall n, step wf n s = None.

Definition remaining (s : sys) : nat := fold_right (fun t a => length (todo t) + a) 0 s.

(** The lock under which a callback is called. *)
Definition guard (c : cbk) : lck :=
  match c with
  | KRecv r => LRcv r
  | KDropped r | KConn r | KDisc r => LREv r
  | KWConn w | KWDisc w => LWEv w
  | KReg => LAppl
  end.

(** The callbacks that a call sets, removes or ends. *)
Definition changes (k : call) : list cbk :=
  match k with
  | SetReceive r | RemReceive r => [KRecv r]
  | SetSubEvent r | RemSubEvent r => [KDropped r; KConn r; KDisc r]
  | DestroySub r => [KRecv r; KDropped r; KConn r; KDisc r]
  | SetPubEvent w | RemPubEvent w | DestroyPub w => [KWConn w; KWDisc w]
  | _ => []
  end.

Definition inside (c : cbk) (t : thr) : Prop := In (In_ c) (has t).

(** Whether the threads of [es] stand still with work left. *)
Definition standing (wf : bool) (es : list evt) : bool :=
  let s := run wf es in
  existsb (fun t => match todo t with [] => false | _ => true end) s
  && forallb (fun n => match step wf n s with None => true | Some _ => false end) (seq 0 (length s)).

(** Threads with the work [ws] can get into a state in which they stay for ever,
    whatever other threads come and do. *)
Definition hangs (wf : bool) (ws : list (list work)) : Prop :=
  exists ns, forall es, exists t,
    In t (firstn (length ws) (run wf (map Spawn ws ++ map Run ns ++ es))) /\ todo t <> [].

Definition doneb (s : sys) : bool :=
  forallb (fun t => match todo t, has t with [], [] => true | _, _ => false end) s.

(** ** Pieces for examples *)

Definition sample_for (r : nat) (ks : list call) : work := Job (Sample [(r, (false, true))]) [ks].
Definition sample_lost (r : nat) (ks : list call) : work := Job (Sample [(r, (true, true))]) [ks; []].
Definition connects (r : nat) (ks : list call) : work :=
  Job (PubRegistered [{| rm_r := r; rm_files := 1; rm_conf := true; rm_new := true; rm_cb := true |}] false) [ks].
Definition disconnects (r : nat) (ks : list call) : work := Job (SendCycle [(r, true)] []) [ks].
Definition pub_connects (w : nat) (ks : list call) : work :=
  Job (SubRegistered [{| wm_w := w; wm_new := true; wm_cb := true; wm_start := true |}] false) [ks].
Definition pub_disconnects (w : nat) (ks : list call) : work := Job (SendCycle [] [(w, true)]) [ks].

(** Thread 0 makes [k] steps, then thread 1 all it can, then thread 0 again. *)
Definition first_then (k : nat) : list nat := repeat 0 k ++ repeat 1 100 ++ repeat 0 100.

(** The number of steps of thread 0 after which two threads stand still. *)
Fixpoint find_stand (wf : bool) (ws : list (list work)) (k : nat) : option nat :=
  match k with
  | 0 => None
  | S k' => if standing wf (map Spawn ws ++ map Run (first_then k)) then Some k else find_stand wf ws k'
  end.

(** Four threads: a user's, the two of the registration, one with data. *)
Definition busy : list evt :=
  [Spawn [Api (CreateSub 1); Api (SetReceive 1); Api (Send 7 true true); Api (DestroySub 1)];
   Spawn [connects 2 [Send 7 true false; CreatePub 8]; Job (SubRegistered [{| wm_w := 7; wm_new := true; wm_cb := true; wm_start := true |}] true) [[CreateSub 5; DestroySub 5]; [WriteLog]]];
   Spawn [Job (SendCycle [(1, true); (2, true)] [(7, true)]) [[Send 8 true true]; []; [WriteLog]]];
   Spawn [sample_for 2 [Send 7 true true; CreateSub 3; IsPublished 2]]].
