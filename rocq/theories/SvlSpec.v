(** * Svl: vocabulary of the statements *)

From Coq Require Import List Bool Arith Lia.
From Verif Require Import Base.
From Verif Require LckModel LckSpec.
From Verif Require Import SvlModel.
Import ListNotations.

(** ** Rules for the callbacks of the user

    The library is not finalized.  [pubs_use_subs] chooses between the first two
    sets of rules of [LckSpec]; [destroy] chooses whether method, response and
    server event callbacks may change receive callbacks and destroy subscribers, or
    receive callbacks may make blocking calls without timeout. *)
Record rules := { pubs_use_subs : bool; destroy : bool }.

Definition ps_plan (q : rules) : LckSpec.plan :=
  if pubs_use_subs q then LckSpec.PubsUseSubs else LckSpec.SubsUsePubs.

(** Blocking calls without timeout. *)
Definition waits (k : call) : bool :=
  match k with
  | CallCb _ _ _ timeout _ _ => negb timeout
  | CallVec _ _ _ timeout _ => negb timeout
  | _ => false
  end.

Definition never (k : call) : bool :=
  match k with
  | PS k => LckSpec.never k
  | FinalizeAll _ _ _ _ => true
  | _ => false
  end.

Definition uses_server (k : call) : bool :=
  match k with CreateSrv _ | SetMethod _ | IsConnSrv _ => true | _ => false end.

Definition ends_server (k : call) : bool :=
  match k with DestroySrv _ | SetSrvEvent _ => true | _ => false end.

(** Calls that change or call a receive callback, or end a subscriber. *)
Definition sets_receive (k : call) : bool :=
  match k with
  | PS (LckModel.DestroySub _) | PS (LckModel.SetReceive _) | PS (LckModel.RemReceive _) => true
  | _ => false
  end.

(** Calls that change or call a response callback, or end a client. *)
Definition sets_response (k : call) : bool :=
  match k with
  | CallCb _ _ _ _ _ _ | CallAsyncError _ _ | SetResp _ | DestroyCli _ => true
  | _ => false
  end.

Definition pub_sub (k : call) (f : LckModel.call -> bool) : bool :=
  match k with PS k => f k | _ => false end.

(** [may q c k]: under the rules [q], callback [c] may make the call [k]. *)
Definition may (q : rules) (c : cb) (k : call) : bool :=
  negb (never k) &&
  (uses_server k ||
   match c with
   | PC LckModel.KReg => true
   | PC (LckModel.KRecv r) =>
       match k with
       | PS k => LckSpec.may (ps_plan q) (LckModel.KRecv r) k
       | _ => negb (destroy q) || negb (waits k || ends_server k || sets_response k)
       end
   | PC c => pub_sub k (LckSpec.may (ps_plan q) c)
   | KMeth _ => negb (waits k) && (destroy q || negb (sets_receive k))
   | KSEv _ => negb (waits k) && (destroy q || negb (sets_receive k)) && negb (ends_server k)
   | KResp _ =>
       negb (waits k) && (destroy q || negb (sets_receive k))
       && negb (ends_server k) && negb (sets_response k)
   | KTime _ | KCConn _ | KCDisc _ =>
       pub_sub k (fun k => LckSpec.harmless k || LckSpec.of_publisher k || LckSpec.asks_subscriber k
                           || LckSpec.creates_subscriber k)
   end).

(** The callbacks a tree calls, in order. *)
Fixpoint holes (b : blk) : list cb :=
  match b with
  | Skip => []
  | Seq a b' => holes a ++ holes b'
  | With _ _ body => holes body
  | Hole c => [c]
  | Inside _ _ => []
  | Await _ => []
  end.

Definition what (a : act) : call := match a with Act k _ => k end.

(** All callbacks inside a call keep to the rules. *)
Inductive act_keeps (q : rules) : act -> Prop :=
| keeps_act : forall k beh,
    (forall c l a, In (c, l) (combine (holes (call_blk k)) beh) -> In a l -> may q c (what a) = true) ->
    (forall c l a, In (c, l) (combine (holes (call_blk k)) beh) -> In a l -> act_keeps q a) ->
    act_keeps q (Act k beh).

Definition finalizes (k : call) : bool :=
  match k with PS (LckModel.Finalize _ _) | FinalizeAll _ _ _ _ => true | _ => false end.

Definition keeps (q : rules) (w : work) : Prop :=
  match w with
  | Api a => finalizes (what a) = false /\ act_keeps q a
  | Job j beh =>
      forall c l a, In (c, l) (combine (holes (job_blk j)) beh) -> In a l ->
        may q c (what a) = true /\ act_keeps q a
  end.

Definition event_keeps (q : rules) (e : evt) : Prop :=
  match e with
  | Run _ => True
  | Spawn l => Forall (keeps q) l
  end.

Definition done (t : thr) : Prop := todo t = [] /\ has t = [].

Inductive steps (pl : policy) : list nat -> sys -> sys -> Prop :=
| steps_nil : forall s, steps pl [] s s
| steps_cons : forall n ns s s1 s2, step pl n s = Some s1 -> steps pl ns s1 s2 -> steps pl (n :: ns) s s2.

Definition blocked (pl : policy) (s : sys) : Prop := forall n, step pl n s = None.

Definition remaining (s : sys) : nat := fold_right (fun t a => length (todo t) + a) 0 s.

(** The lock under which a callback is called; method callbacks have none. *)
Definition guard (c : cb) : option lk :=
  match c with
  | PC c => Some (P (LckSpec.guard c))
  | KResp c => Some (LRsp c)
  | KTime c | KCConn c | KCDisc c => Some (LCEv c)
  | KSEv s => Some (LSEv s)
  | KMeth _ => None
  end.

(** The callbacks that a call sets, removes or ends; method callbacks apart. *)
Definition changes (k : call) : list cb :=
  match k with
  | PS k => map PC (LckSpec.changes k)
  | SetResp c => [KResp c]
  | SetCliEvent c => [KTime c; KCConn c; KCDisc c]
  | DestroyCli c => [KResp c; KTime c; KCConn c; KCDisc c]
  | SetSrvEvent s | DestroySrv s => [KSEv s]
  | _ => []
  end.

Definition inside (c : cb) (t : thr) : Prop := In (In_ c) (has t).

Definition standing (pl : policy) (es : list evt) : bool :=
  let s := run pl es in
  existsb (fun t => match todo t with [] => false | _ => true end) s
  && forallb (fun n => match step pl n s with None => true | Some _ => false end) (seq 0 (length s)).

(** Threads with the work [ws] can get into a state in which they stay for ever,
    whatever other threads come and do. *)
Definition hangs (pl : policy) (ws : list (list work)) : Prop :=
  exists ns, forall es, exists t,
    In t (firstn (length ws) (run pl (map Spawn ws ++ map Run ns ++ es))) /\ todo t <> [].

Definition doneb (s : sys) : bool :=
  forallb (fun t => match todo t, has t with [], [] => true | _, _ => false end) s.

(** ** Pieces for examples *)

(** A call whose callbacks do nothing. *)
Definition plainly (k : call) : act := Act k [].

(** The library tells client [c] of a new server; the client's event does [ks]. *)
Definition found (c : nat) (ks : list call) : work :=
  Job (ServiceRegistered [{| cm_c := c; cm_new := true; cm_cb := true |}] false) [map plainly ks].

(** The library finds a connection of client [c] broken. *)
Definition broken (c : nat) (ks : list call) : work :=
  Job (SendCycle [] [] [] [{| cr_c := c; cr_news := []; cr_fires := [true] |}]) [map plainly ks].

(** Thread [i] of the service library runs a method callback. *)
Definition request (i s : nat) (ks : list call) : work := Job (Requested i (10 + i) s true) [map plainly ks].

(** Thread [i] delivers an answer of connection [x] to client [c]. *)
Definition answer (i x c : nat) (ks : list call) : work := Job (Answered i x c true) [map plainly ks].

(** Client [c] calls one service and gets one answer. *)
Definition ask (c x : nat) (ks : list call) : work :=
  Api (Act (CallCb c [] [x] true 1 0) [map plainly ks]).

(** A reader's disconnected event. *)
Definition sub_lost (r : nat) (ks : list call) : work :=
  Job (SendCycle [(r, true)] [] [] []) [map plainly ks].

(** Thread 0 makes [k] steps, then thread 1 all it can, then thread 0 again. *)
Definition first_then (k : nat) : list nat := repeat 0 k ++ repeat 1 100 ++ repeat 0 100.

Fixpoint find_stand (pl : policy) (ws : list (list work)) (k : nat) : option nat :=
  match k with
  | 0 => None
  | S k' => if standing pl (map Spawn ws ++ map Run (first_then k)) then Some k else find_stand pl ws k'
  end.

(** Six threads: two of a user, the two of the registration, two of the service
    library. *)
Definition busy : list evt :=
  [Spawn [Api (plainly (CreateCli 1)); Api (plainly (CreateSrv 1)); Api (plainly (SetMethod 1));
          Api (Act (CallCb 1 [true] [5] false 1 0) [[plainly (CreateCli 2); plainly (PS (LckModel.Send 7 true true))]]);
          Api (plainly (DestroyCli 1)); Api (plainly (DestroySrv 1))];
   Spawn [Job (PSJob (LckModel.Sample [(2, (false, true))]))
              [[Act (CallCb 2 [] [6] false 1 0) [[plainly (CallAsync 2 [] [6])]]]]];
   Spawn [found 1 [PS (LckModel.CreateSub 3); PS (LckModel.Send 7 true false)]];
   Spawn [Job (SendCycle [(2, true)] [(7, true)] [1] [{| cr_c := 1; cr_news := [true]; cr_fires := [true] |}])
              [[plainly (PS (LckModel.Send 8 true true))]; []; [plainly (PS (LckModel.CreateSub 4))]]];
   Spawn [request 0 1 [CallVec 1 [] [5] true 0; DestroyCli 2]; Job (Accepted 0) []];
   Spawn [answer 1 6 2 [CallAsync 2 [] [6]; IsConnCli 2]; Job (SrvEvent 1 1 true) [[plainly (SetResp 2)]]]].

(** All four threads of the service library run a method callback that makes a
    blocking call without timeout. *)
Definition four : list (list work) :=
  [[request 0 1 [CallVec 1 [] [5] false 0]]; [request 1 1 [CallVec 1 [] [6] false 0]];
   [request 2 1 [CallVec 1 [] [7] false 0]]; [request 3 1 [CallVec 1 [] [8] false 0]]].

(** The rules of the example. *)
Definition rules1 : rules := {| pubs_use_subs := false; destroy := false |}.
