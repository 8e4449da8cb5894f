(** Vocabulary for the statements about asking processes to shut down. *)
From Verif Require Import Base Sample EvtModel NamModel NamSpec ShtModel.

(** ** What a process hears, told without events: whole calls one after another *)
Inductive hearing :=
| Unheard      (* the process has not called Ok yet *)
| Listening    (* it has, and nobody asked since *)
| Asked        (* it was asked, and has not called Ok since *)
| Deaf.        (* it has answered no once: from now on it is never asked again *)
Definition hear_step (c : shcall) (h : hearing) : hearing * option bool :=
  match c, h with
  | WOk, Unheard => (Listening, Some true)
  | WOk, Listening => (Listening, Some true)
  | WOk, Asked => (Deaf, Some false)
  | WOk, Deaf => (Deaf, Some true)
  | WAsk _, Listening => (Asked, None)
  | WAsk _, _ => (h, None)
  | WDie, _ => (Unheard, None)
  end.
Fixpoint hear_run (cs : list shcall) (h : hearing) : hearing * list bool :=
  match cs with
  | [] => (h, [])
  | c :: cs' =>
      let (h1, a) := hear_step c h in
      let (h2, l) := hear_run cs' h1 in
      (h2, match a with Some b => b :: l | None => l end)
  end.
Definition call_reqs (cs : list shcall) : list nat :=
  flat_map (fun c => match c with WAsk r => [r] | _ => [] end) cs.

(** ** Calls and requests at the same time *)

(** Nobody else than the process opens or creates the event. *)
Definition under_way (s : sevt) (r : nat) : Prop := ephase_of (se_sys s) (S r) <> EAbsent.
(** The request has not begun. *)
Definition not_begun (s : sevt) (r : nat) : Prop := aget r (se_reqs s) = None /\ ~ under_way s r.
Definition finished (s : sevt) (r : nat) : Prop := aget r (se_reqs s) = Some true.
(** The process has opened its event, whose file is [id], and nobody is still creating this file. *)
Definition has_opened (s : sevt) (id : nat) : Prop :=
  ephase_of (se_sys s) 0 = EOpened true id false /\
  forall c ow b, ephase_of (se_sys s) c <> ECreating ow id b.
(** Whoever opens the event by its name gets the file of the process. *)
Definition is_listening (s : sevt) : Prop := exists id, has_opened s id /\ es_link (se_sys s) = Some id.
Definition asks (ops : list shop) : list nat := flat_map (fun o => match o with SAsk r => [r] | _ => [] end) ops.
Definition noes (l : list bool) : nat := length (filter negb l).

(** ** All processes of a host *)
Definition ops_of (pid : Z) (ops : list (Z * shop)) : list shop := map snd (filter (fun o => Z.eqb (fst o) pid) ops).
Definition answers_of (pid : Z) (l : list (Z * bool)) : list bool := map snd (filter (fun o => Z.eqb (fst o) pid) l).
(** The event of this process got where it is by whole calls: what the process hears now. *)
Definition hears (s : shsys) (pid : Z) (below : nat) (h : hearing) : Prop :=
  exists cs l, sw_run cs sevt_init = Some (evt_of s (shutdown_event pid), l) /\
    NoDup (call_reqs cs) /\ (forall r, In r (call_reqs cs) -> r < below) /\ fst (hear_run cs Unheard) = h.

(** ** Examples *)
Definition ex_calls : list shcall := [WAsk 0; WOk; WAsk 1; WAsk 2; WOk; WOk; WAsk 3; WOk; WDie; WOk; WAsk 4; WOk].
(** A request opens the event, then another one; the process answers in between. *)
Definition ex_two : list shop := [SOk; SOk; SOk; SOk; SOk; SAsk 0; SAsk 1; SAsk 0; SOk; SAsk 1; SOk; SAsk 1; SAsk 0; SOk].
Definition ex_opened : list shop := [SOk; SOk; SOk; SOk; SOk].
Definition ex_host : text := str "box".
Definition ex_procs : list mproc :=
  [MProc 10 (str "/usr/bin/app") (str "app") (str "box"); MProc 11 (str "/usr/bin/ecal_mon_gui") (str "eCALMon") (str "box");
   MProc 12 (str "app") (str "other") (str "box"); MProc 10 (str "/usr/bin/app") (str "app") (str "far")].
(** The processes 10, 11 and 12 have called Ok. *)
Definition ex_sys : shsys :=
  match sh_run (map (fun o => (10%Z, o)) ex_opened ++ map (fun o => (11%Z, o)) ex_opened ++ map (fun o => (12%Z, o)) ex_opened) [] with
  | Some (s, _) => s
  | None => []
  end.
(** All the steps of one request. *)
Definition six (r : nat) : list shop := repeat (SAsk r) 6.
(** The applications that come with eCAL. *)
Definition core_units : list text :=
  map str ["eCALMon"; "eCALPlay"; "eCALPlayGUI"; "eCALRec"; "eCALRecGUI"; "eCALSys"; "eCALSysGUI"; "eCALStop"; "eCALTopic"]%string.
