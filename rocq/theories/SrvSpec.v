(** Vocabulary for the statements about service servers. *)
From Verif Require Import Base Sample PbModel SerModel SrvModel.

(** What the calls say about one method, newest call last: is it known, with which callback, and
    how many requests named it since it is known. *)
Definition names (m : text) (bs : list Z) : bool :=
  match de_request bs with Ok q => eqb (h_mname (rq_header q)) m | _ => false end.
Record ledger := Ledger { ld_known : bool; ld_cb : option nat; ld_count : Z; ld_types : text * text; ld_descs : text * text }.
Definition note (m : text) (l : ledger) (op : mop) : ledger :=
  match op with
  | MDescribe m' rt rd st sd =>
      if eqb m' m then Ledger true (ld_cb l) (ld_count l) (rt, st) (rd, sd) else l
  | MCallback m' rt st cb => if eqb m' m then Ledger true (Some cb) (ld_count l) (rt, st) (ld_descs l) else l
  | MRemove m' => if eqb m' m then Ledger false None 0 ([], []) ([], []) else l
  | MRequest bs => if (ld_known l && names m bs)%bool then Ledger true (ld_cb l) (ld_count l + 1) (ld_types l) (ld_descs l) else l
  | _ => l
  end.
Definition book (ops : list mop) (m : text) : ledger := fold_left (note m) ops (Ledger false None 0 ([], []) ([], [])).
Definition known (ops : list mop) (m : text) : bool := ld_known (book ops m).

Definition requests (ops : list mop) : nat := length (filter (fun op => match op with MRequest _ => true | _ => false end) ops).
(** The events of one request. *)
Definition of_request (k : nat) (e : mev) : bool :=
  match e with VCall k' _ _ _ _ _ | VReply k' _ | VTerminate k' => Nat.eqb k' k | _ => false end.
Definition about (k : nat) (tr : list mev) : list mev := filter (of_request k) tr.

(** The answers. *)
Definition head (host name id mname error : text) (state : Z) : header := Header host name id mname error 0 state.
Definition say_unreadable (host name id : text) : response :=
  Response (head host name id [] (str "Service '" ++ name ++ str "' request message could not be parsed.") 2) [] 0.
Definition say_unknown (host name id m : text) : response :=
  Response (head host name id m (str "Service '" ++ name ++ str "' has no method named '" ++ m ++ str "'") 2) [] 0.
Definition say_executed (host name id m resp : text) (ret : Z) : response :=
  Response (head host name id m [] 1) resp ret.

(** Number of executed calls of a method, of requests for it while it was known, and the two
    stages of a request. *)
Definition executions (m : text) (tr : list mev) : nat :=
  length (filter (fun e => match e with VCall _ _ m' _ _ _ => eqb m' m | _ => false end) tr).
Fixpoint asked (before ops : list mop) (m : text) : nat :=
  match ops with
  | [] => 0
  | op :: ops' =>
      (match op with MRequest bs => if (known before m && names m bs)%bool then 1 else 0 | _ => 0 end) + asked (before ++ [op]) ops' m
  end.
Definition waiting (m : text) (s : server) : nat :=
  length (filter (fun p => (negb (jb_entered (snd p)) && eqb (me_name (mt_method (jb_method (snd p)))) m)%bool) (vr_jobs s)).
Definition returns (ops : list mop) (k : nat) : list (text * Z) :=
  flat_map (fun op => match op with MReturn k' r x => if Nat.eqb k' k then [(r, x)] else [] | _ => [] end) ops.

(** Every request for a known method finds a callback. *)
Definition callable (ops : list mop) : Prop :=
  forall ops1 bs ops2 m, ops = ops1 ++ MRequest bs :: ops2 -> names m bs = true -> known ops1 m = true -> ld_cb (book ops1 m) <> None.
(** The steps of the threads that execute requests. *)
Definition work (op : mop) : bool := match op with MEnter _ | MReturn _ _ _ => true | _ => false end.
