(** * Rac: what a data race is *)
From Coq Require Import List Bool Arith.
From Verif Require Import Base RacModel.
Import ListNotations.

(** The access a thread is about to make: the variable and whether it is written. *)
Definition access (t : thr) : option (fld * bool) :=
  match th_todo t with
  | Do (Rd f) :: _ => Some (f, false)
  | Do (Wr f) :: _ => Some (f, true)
  | _ => None
  end.

(** Two threads are about to access a variable that is not atomic, and one of them writes it. *)
Definition race (ts : list thr) (f : fld) : Prop :=
  atomic f = false /\
  exists i j ti tj wi wj, i <> j /\ nth_error ts i = Some ti /\ nth_error ts j = Some tj /\
    access ti = Some (f, wi) /\ access tj = Some (f, wj) /\ wi || wj = true.

(** The threads of a process: any number, but at most one of a role that has one thread. *)
Definition fits (sys : list role) (rs : list nat) : Prop :=
  forall r ro, nth_error sys r = Some ro -> ro_many ro = false -> count_occ Nat.eq_dec rs r <= 1.

(** The states that threads which are idle at first can come to. *)
Definition reaches (sys : list role) (rs : list nat) (ts : list thr) : Prop :=
  fits sys rs /\ exists sched, runs sys (map idle rs) sched = Some ts.

(** One thread in call [c], another in call [d], and both at the variable [f]. *)
Definition collide (sys : list role) (f : fld) (c d : cname) : Prop :=
  exists r1 r2 w1 w2 ts, fits sys [r1; r2] /\
    (forall n, ~ In (Begin n) w1) /\ (forall n, ~ In (Begin n) w2) /\
    runs sys [idle r1; idle r2] (map (pair 0) (Begin c :: w1) ++ map (pair 1) (Begin d :: w2)) = Some ts /\
    race ts f.

(** A call of a list of roles that holds a lock while it makes an access: read off the text. *)
Fixpoint accs (held : list (lk * bool)) (s : stm) : list (fld * bool * list (lk * bool)) :=
  match s with
  | Skip => []
  | Rd f => [(f, false, held)]
  | Wr f => [(f, true, held)]
  | Seq a b => accs held a ++ accs held b
  | Alt a b => accs held a ++ accs held b
  | Loop a => accs held a
  | Hold l sh a => accs ((l, sh) :: held) a
  | Keep l a => accs ((l, false) :: held) a
  end.
Definition table (ro : role) : list (fld * bool * list (lk * bool)) := flat_map (fun c => accs [] (snd c)) (ro_calls ro).

(** A lock both hold, and not both of them shared. *)
Definition apart (a b : list (lk * bool)) : bool :=
  existsb (fun x => existsb (fun y => eqb (fst x) (fst y) && negb (snd x && snd y)) b) a.
Definition of_field (f : fld) (l : list (fld * bool * list (lk * bool))) : list (bool * list (lk * bool)) :=
  map (fun x => (snd (fst x), snd x)) (filter (fun x => eqb (fst (fst x)) f) l).
Definition safe_pair (a b : list (bool * list (lk * bool))) : bool :=
  forallb (fun x => forallb (fun y => negb (fst x || fst y) || apart (snd x) (snd y)) b) a.
Fixpoint safe_with (f : fld) (a : list (bool * list (lk * bool))) (rs : list role) : bool :=
  match rs with
  | [] => true
  | r :: rest => safe_pair a (of_field f (table r)) && safe_with f a rest
  end.
Fixpoint guarded (f : fld) (sys : list role) : bool :=
  match sys with
  | [] => true
  | r :: rest => let a := of_field f (table r) in
                 (negb (ro_many r) || safe_pair a a) && safe_with f a rest && guarded f rest
  end.

(** The choices that lead a thread to an access, and those that lead through a statement. *)
Fixpoint through (s : stm) : list choice :=
  match s with
  | Skip | Rd _ | Wr _ => [Go]
  | Seq a b => Go :: through a ++ through b
  | Alt _ b => Other :: through b
  | Loop _ => [Other]
  | Hold _ _ a => Go :: through a ++ [Go]
  | Keep _ a => Go :: through a
  end.
Fixpoint way (f : fld) (w : bool) (s : stm) : option (list choice) :=
  match s with
  | Skip => None
  | Rd g => if eqb g f && negb w then Some [] else None
  | Wr g => if eqb g f && w then Some [] else None
  | Seq a b => match way f w a with
               | Some p => Some (Go :: p)
               | None => option_map (fun p => Go :: through a ++ p) (way f w b)
               end
  | Alt a b => match way f w a with
               | Some p => Some (Go :: p)
               | None => option_map (cons Other) (way f w b)
               end
  | Loop a => option_map (cons Go) (way f w a)
  | Hold _ _ a => option_map (cons Go) (way f w a)
  | Keep _ a => option_map (cons Go) (way f w a)
  end.

(** All variables. *)
Definition lays : list lay := [LyUdp; LyShm; LyTcp].
Definition ents : list ent := [EPub; ESub; ESrv; ECli; EPrc].
Definition fields : list fld :=
  [WMeta; WInfo; WAttr; WSize; WBuf; WConn; WSubs; WEvts; WId; WClock; WFreq; WMade; UBuf; TBuf; TExec; SFiles; SIdx;
   FName; FFile; FAttr; FMade; FEvts; RMeta; RAttr; RSize; RConn; RPubs; RFlag; RBuf; RTime; RCall; RWait; RHash; REvts;
   RClock; RFreq; RIds; RCnt; RDrop; RMade; UStart; ULocal; URecv; UCast; TInit; TRun; TMap; PPool; CMap; CResp; CEvts;
   CConn; CName; CId; CHost; CMeth; CCount; CMade; VTcp; VName; VId; VMeth; VEvts; VConn; VMade; GServ; ALoop; ACall; AUser;
   PSend; PList; PTrig; PMade; MText; MExcl; MIncl; LMade; LSend; LList; LBuf; LFile; LLev; LMask; GUnit; GState]
  ++ flat_map (fun l => [WPtr l; WRead l; WWrite l; WAct l; RRead l; RWrite l; RAct l]) lays
  ++ flat_map (fun e => [GMap e; DMap e; MMap e]) ents.

(** Two calls, tried: one thread is led to the access in its call, then the other in its. *)
Definition is_begin (c : choice) : bool := match c with Begin _ => true | _ => false end.
Definition tried (sys : list role) (f : fld) (r1 : nat) (c : cname) (w1 : bool) (r2 : nat) (d : cname) (w2 : bool) : bool :=
  match nth_error sys r1, nth_error sys r2 with
  | Some ro1, Some ro2 =>
      (negb (Nat.eqb r1 r2) || ro_many ro1) && negb (atomic f) && (w1 || w2) &&
      match call_of c (ro_calls ro1), call_of d (ro_calls ro2) with
      | Some s1, Some s2 =>
          match way f w1 s1, way f w2 s2 with
          | Some p, Some q =>
              negb (existsb is_begin p) && negb (existsb is_begin q) &&
              match runs sys [idle r1; idle r2] (map (pair 0) (Begin c :: p) ++ map (pair 1) (Begin d :: q)) with
              | Some [t1; t2] => match access t1, access t2 with
                                 | Some (f1, v1), Some (f2, v2) => eqb f1 f && eqb f2 f && (v1 || v2)
                                 | _, _ => false
                                 end
              | _ => false
              end
          | _, _ => false
          end
      | _, _ => false
      end
  | _, _ => false
  end.
Definition found_pair (sys : list role) (x : fld * cname * cname) : bool :=
  let '(f, c, d) := x in
  existsb (fun r1 => existsb (fun r2 => existsb (fun w1 => existsb (fun w2 => tried sys f r1 c w1 r2 d w2) [true; false]) [true; false])
    (seq 0 (length sys))) (seq 0 (length sys)).

(** The variables that two threads use without a common lock, and the calls that do. *)
Definition pub_races : list (fld * cname * cname) :=
  [(WInfo, UInfo, SPubs); (WInfo, UInfo, NSub); (WAttr, UAttr EPub, SPubs); (WAttr, UAttr EPub, NSub);
   (WSize, USend, SPubs); (WSize, USend, NSub); (WId, USend, SPubs); (WId, USend, NSub); (WClock, USend, SPubs); (WClock, USend, NSub);
   (FName, USend, SPubs); (FName, USend, NSub); (FMade, USend, NSub)]
  ++ flat_map (fun l => [(WPtr l, NSub, USend); (WPtr l, NSub, SPubs); (WWrite l, NSub, SPubs); (WWrite l, NSub, USend);
                         (WAct l, USend, SPubs); (WAct l, USend, NSub)]) lays.
Definition sub_races : list (fld * cname * cname) :=
  [(RAttr, UAttr ESub, SSubs); (RIds, USetId, DData); (RBuf, DData, UDump ESub); (RTime, DData, UDump ESub); (RDrop, DData, SSubs)]
  ++ map (fun l => (RAct l, DData, SSubs)) lays.
Definition layer_races : list (fld * cname * cname) :=
  [(UStart, XSubNew, XSubNew); (ULocal, XSubNew, XSubNew); (ULocal, XSubNew, XSubEnd); (URecv, XSubNew, XSubNew); (URecv, XSubNew, XSubEnd);
   (UCast, XSubNew, XSubNew); (UCast, XSubNew, XSubEnd); (UCast, XSubEnd, XSubEnd); (TRun, XSubNew, XSubNew)].
Definition service_races : list (fld * cname * cname) :=
  [(CConn, NService, SClis); (CConn, SClis, UConnected);
   (CName, UGateStop ECli, SClis); (CName, UGateStop ECli, NService); (CId, UGateStop ECli, SClis); (CId, UGateStop ECli, NService);
   (VName, UGateStop ESrv, SSrvs); (VName, UDestroy ESrv, TRequest); (VName, UDestroy ESrv, TEvent);
   (VId, UGateStop ESrv, SSrvs); (VId, UDestroy ESrv, TRequest); (VId, UDestroy ESrv, TEvent)].
Definition global_races : list (fld * cname * cname) :=
  [(ALoop, XLoop, NSub); (ALoop, XLoop, NPub); (AUser, XReg, NUser); (MText, XFilterText, XFilter); (LLev, XLogLevel, XLogPlain);
   (GUnit, XUnit, SProc); (GUnit, XUnit, NSub); (GState, XState, SProc)].
Definition races : list (fld * cname * cname) := pub_races ++ sub_races ++ layer_races ++ service_races ++ global_races.

(** A process in which some calls are never made. *)
Definition without (cs : list cname) (sys : list role) : list role :=
  map (fun r => {| ro_many := ro_many r; ro_calls := filter (fun c => negb (existsb (eqb (fst c)) cs)) (ro_calls r) |}) sys.

(** The calls a process can do without, or make before others see the object: changing the type information or
    the attributes of a publisher or subscriber, [SetID] and [Dump] of a subscriber, creating and destroying
    further subscribers at the same time, the switches of the library, and ending servers and clients. *)
Definition settings : list cname :=
  [UInfo; UAttr EPub; UAttr ESub; USetId; UDump ESub; XSubNew; XSubEnd; XLoop; XReg; XFilterText; XLogLevel; XUnit; XState;
   UGateStop ECli; UGateStop ESrv; UDestroy ESrv].
(** What is left. *)
Definition core_races : list fld :=
  [WSize; WId; WClock; FName; FMade; RDrop; CConn] ++ flat_map (fun l => [WPtr l; WWrite l; WAct l; RAct l]) lays.

(** Example: a process with eight threads: the thread of the publisher sends and is about to read the map of
    its subscriptions, the send thread of the registration reports the publisher and waits for that map, one
    thread that receives data is at the hashes of a subscriber, another waits for it. *)
Definition x_roles : list nat := [0; 1; 7; 6; 6; 8; 8; 4].
Definition to_read (f : fld) (s : stm) : list choice := match way f false s with Some p => p | None => [] end.
Definition x_busy : list (nat * choice) :=
  map (pair 0) (Begin USend :: to_read WSubs w_send) ++
  map (pair 2) (Begin SPubs :: removelast (removelast (removelast (to_read WSubs (X KRun [found EPub [w_check; w_sample]]))))) ++
  map (pair 5) (Begin DData :: to_read RHash d_sample) ++
  map (pair 6) (Begin DData :: Go :: through (Sh (KGate ESub) [Rd (GMap ESub)]) ++ [Go]).
Definition x_after : list thr := match runs ecal (map idle x_roles) x_busy with Some ts => ts | None => [] end.
Definition fitsb (sys : list role) (rs : list nat) : bool :=
  forallb (fun r => match nth_error sys r with Some ro => ro_many ro || Nat.leb (count_occ Nat.eq_dec rs r) 1 | None => true end) (seq 0 (length sys)).

(** What protects the variables that are protected: a lock that is always held exclusively, a lock that is
    held exclusively to write and at least shared to read, the one role that uses the variable, or nobody
    writing it. *)
Definition locked_by : list (fld * lk) :=
  [(WSubs, KSubs); (WEvts, KWEv); (WFreq, KWFr); (FEvts, KFile); (RPubs, KPubs); (RFlag, KRead); (RCall, KRecv); (RHash, KRecv);
   (RCnt, KRecv); (REvts, KREv); (RFreq, KRFr); (TMap, KTMap); (PPool, KPool); (CMap, KCMap); (CResp, KResp); (CEvts, KCEv);
   (CCount, KMeth); (VMeth, KVMeth); (VEvts, KVEv); (VConn, KVConn); (ACall, KAppl); (PList, KList); (PTrig, KTrig);
   (MExcl, KExcl); (MIncl, KIncl); (LSend, KLog); (LList, KLog); (LBuf, KLog); (LFile, KLog); (TExec, KAppl)]
  ++ map (fun l => (WRead l, KAppl)) lays ++ map (fun l => (RWrite l, KAppl)) lays
  ++ map (fun e => (DMap e, KDesc e)) ents ++ map (fun e => (MMap e, KMon e)) ents.
Definition read_shared : list (fld * lk) := (GServ, KServ) :: map (fun e => (GMap e, KGate e)) ents.
Definition used_by : list (fld * nat) := [(WBuf, 0); (UBuf, 0); (TBuf, 0); (SIdx, 0); (FAttr, 0); (FFile, 0); (CHost, 2)].
Definition constant : list fld := [WMeta; RMeta; CMeth; VTcp; LMask].
Definition at_end : list fld := [SFiles; PSend] ++ map RRead lays.

Definition holds (h : list (lk * bool)) (l : lk) : Prop := In (l, false) h.
Definition holds_some (h : list (lk * bool)) (l : lk) : Prop := exists sh, In (l, sh) h.
