(** Vocabulary for the monitoring: who is registered, what is shown about them, and which
    topics a filter selects. *)
From Verif Require Import Base Sample SerModel MonModel.

(** ** Who *)
Inductive kind := KProcess | KPublisher | KSubscriber | KServer | KClient.
Definition announces (k : kind) : cmd :=
  match k with
  | KProcess => bct_reg_process | KPublisher => bct_reg_publisher | KSubscriber => bct_reg_subscriber
  | KServer => bct_reg_service | KClient => bct_reg_client
  end.
Definition withdraws (k : kind) : cmd :=
  match k with
  | KProcess => bct_unreg_process | KPublisher => bct_unreg_publisher | KSubscriber => bct_unreg_subscriber
  | KServer => bct_unreg_service | KClient => bct_unreg_client
  end.
(** The bit of the entity mask, ecal/types/monitoring.h 40-44. *)
Definition bit_of (k : kind) : nat :=
  match k with KPublisher => 0 | KSubscriber => 1 | KServer => 2 | KClient => 3 | KProcess => 4 end.
Definition asked (k : kind) (ents : Z) : Prop := Z.testbit ents (Z.of_nat (bit_of k)) = true.
Definition called (k : kind) (s : sample) : text :=
  match k with
  | KProcess => pr_pname (sm_process s)
  | KPublisher | KSubscriber => tp_tname (sm_topic s)
  | KServer => sv_sname (sm_service s) | KClient => cl_sname (sm_client s)
  end.
Definition id_of (k : kind) (s : sample) : text := match k with KProcess => [] | _ => sm_entity s end.
(** Host, process id, name and id. *)
Definition who (k : kind) (s : sample) : text * Z * text * text := (sm_host s, sm_pid s, called k s, id_of k s).

(** The label under which a table keeps an entity: name and id (of topics), name and
    process id (of processes) or all three (of services) written one after the other. *)
Definition label (k : kind) (s : sample) : text :=
  match k with
  | KProcess => called k s ++ int_text (sm_pid s)
  | KPublisher | KSubscriber => called k s ++ id_of k s
  | KServer | KClient => called k s ++ id_of k s ++ int_text (sm_pid s)
  end.

(** ** Filters *)
(** [p] is one of the patterns of the list [f]: a piece without comma or semicolon that
    cannot be extended. *)
Definition delim (c : Z) : Prop := c = 44%Z \/ c = 59%Z.
Definition listed_pattern (f p : text) : Prop :=
  exists a b, f = a ++ p ++ b /\ p <> [] /\ Forall (fun c => ~ delim c) p /\
    (a = [] \/ exists a' c, a = a' ++ [c] /\ delim c) /\
    (b = [] \/ exists c b', b = c :: b' /\ delim c).

(** The lists as they stand after the history: the configured one or the one set last. *)
Definition set_excl_of (o : mop) : option text := match o with MExcl f => Some f | _ => None end.
Definition set_incl_of (o : mop) : option text := match o with MIncl f => Some f | _ => None end.
Definition current (set_of : mop -> option text) (cfg : text) (h : list (Z * mop)) : text :=
  fold_left (fun c p => match set_of (snd p) with Some f => f | None => c end) h cfg.

(** Pattern [p] is in force: it was in the list when the filters were last switched on, or
    at an earlier time when they were switched on, and they were not switched off since.
    The filters are switched on at the start. *)
Definition in_force (set_of : mop -> option text) (cfg : text) (h : list (Z * mop)) (p : text) : Prop :=
  exists h1 h2, h = h1 ++ h2 /\ (h1 = [] \/ exists h0 t, h1 = h0 ++ [(t, MState true)]) /\
    listed_pattern (current set_of cfg h1) p /\ (forall t, ~ In (t, MState false) h2).
(** [p] was in one of the lists at any time. *)
Definition offered (set_of : mop -> option text) (cfg : text) (h : list (Z * mop)) (p : text) : Prop :=
  listed_pattern cfg p \/ exists t o f, In (t, o) h /\ set_of o = Some f /\ listed_pattern f p.

Section Compile.
Variable compile : text -> option (text -> bool).
Definition matches (p name : text) : Prop := exists f, compile p = Some f /\ f name = true.
(** What a pair of lists of patterns selects. *)
Definition selects (excl incl : text -> Prop) (name : text) : Prop :=
  (forall p, excl p -> ~ matches p name) /\
  ((forall p, ~ incl p) \/ exists p, incl p /\ matches p name).

(** Configured lists. *)
Variable excl0 incl0 : text.
Definition selected (h : list (Z * mop)) (name : text) : Prop :=
  selects (in_force set_excl_of excl0 h) (in_force set_incl_of incl0 h) name.
Definition accepted (k : kind) (h : list (Z * mop)) (s : sample) : Prop :=
  match k with KPublisher | KSubscriber => selected h (called k s) | _ => True end.

(** Patterns that differ only in the case of letters (up to a zero byte). *)
Definition before_zero (s t : text) : Prop := ~ In 0%Z t /\ (s = t \/ exists r, s = t ++ 0%Z :: r).
Definition small_letter (c : Z) : Z := if ((65 <=? c) && (c <=? 90))%Z then (c + 32)%Z else c.
Definition same_letters (p q : text) : Prop :=
  exists p' q', before_zero p p' /\ before_zero q q' /\ map small_letter p' = map small_letter q'.
(** All patterns ever listed are well formed, and those that differ only in case mean the same. *)
Definition good_patterns (h : list (Z * mop)) : Prop :=
  let off p := offered set_excl_of excl0 h p \/ offered set_incl_of incl0 h p in
  (forall p, off p -> compile p <> None) /\
  (forall p q, off p -> off q -> same_letters p q -> forall n, matches p n <-> matches q n).

(** ** What is known *)
(** In the history [h], the entities for which [mine] holds are represented by: nothing, or
    the number of accepted registrations since nothing was known, the latest of them and its
    time.  They are forgotten when one withdraws, and when a listing that asks for their
    kind finds the latest registration older than the timeout. *)
Inductive known (k : kind) (timeout : Z) (mine : sample -> Prop) : list (Z * mop) -> option (Z * sample * Z) -> Prop :=
| kn_start : known k timeout mine [] None
| kn_first h t s : known k timeout mine h None -> sm_cmd s = announces k -> mine s -> accepted k h s ->
    known k timeout mine (h ++ [(t, MSample s)]) (Some (1%Z, s, t))
| kn_again h t s n s0 t0 : known k timeout mine h (Some (n, s0, t0)) -> sm_cmd s = announces k -> mine s -> accepted k h s ->
    known k timeout mine (h ++ [(t, MSample s)]) (Some ((n + 1)%Z, s, t))
| kn_gone h t s x : known k timeout mine h x -> sm_cmd s = withdraws k -> mine s ->
    known k timeout mine (h ++ [(t, MSample s)]) None
| kn_old h t e n s0 t0 : known k timeout mine h (Some (n, s0, t0)) -> asked k e -> (t0 < t - timeout)%Z ->
    known k timeout mine (h ++ [(t, MLook e)]) None
| kn_sample h t s x : known k timeout mine h x ->
    ~ (mine s /\ (sm_cmd s = withdraws k \/ (sm_cmd s = announces k /\ accepted k h s))) ->
    known k timeout mine (h ++ [(t, MSample s)]) x
| kn_look h t e x : known k timeout mine h x ->
    (forall n s0 t0, x = Some (n, s0, t0) -> asked k e -> (t - timeout <= t0)%Z) ->
    known k timeout mine (h ++ [(t, MLook e)]) x
| kn_set h t o x : known k timeout mine h x -> (forall s, o <> MSample s) -> (forall e, o <> MLook e) ->
    known k timeout mine (h ++ [(t, o)]) x.
End Compile.

(** ** What is shown about the latest registration [s], the [n]-th one *)
Definition shows_process (n : Z) (s : sample) (e : text * Z * process) : Prop :=
  let p := sm_process s in let q := snd e in
  fst e = (sm_host s, sm_pid s) /\ pr_rclock q = n /\
  pr_hgname q = pr_hgname p /\ pr_pname q = pr_pname p /\ pr_uname q = pr_uname p /\ pr_pparam q = pr_pparam p /\
  pr_severity q = pr_severity p /\ pr_severity_level q = pr_severity_level p /\ pr_info q = pr_info p /\
  pr_tsync_state q = pr_tsync_state p /\ pr_tsync_mod q = pr_tsync_mod p /\
  pr_comp_state q = pr_comp_state p /\ pr_comp_info q = pr_comp_info p /\ pr_version q = pr_version p.
(** The three layers are shown, active if one of this type is active. *)
Definition shows_layer (ty : ltype) (ls : list tlayer) (l : tlayer) : Prop :=
  ly_type l = ty /\ (ly_active l = true <-> exists x, In x ls /\ ly_type x = ty /\ ly_active x = true).
Definition shows_topic (dir : text) (n : Z) (s : sample) (e : text * Z * text * topic) : Prop :=
  let p := sm_topic s in let q := snd e in
  fst e = (sm_host s, sm_pid s, sm_entity s) /\ tp_rclock q = n /\ tp_direction q = dir /\
  tp_hgname q = tp_hgname p /\ tp_pname q = tp_pname p /\ tp_uname q = tp_uname p /\ tp_tname q = tp_tname p /\
  tp_dtype q = tp_dtype p /\ tp_tsize q = tp_tsize p /\ tp_conn_loc q = tp_conn_loc p /\ tp_conn_ext q = tp_conn_ext p /\
  tp_drops q = tp_drops p /\ tp_did q = tp_did p /\ tp_dclock q = tp_dclock p /\ tp_dfreq q = tp_dfreq p /\
  tp_attr q = tp_attr p /\
  exists u m t, tp_layers q = [u; m; t] /\ shows_layer tl_udp (tp_layers p) u /\
    shows_layer tl_shm (tp_layers p) m /\ shows_layer tl_tcp (tp_layers p) t.
(** The protocol version of services is not shown. *)
Definition shows_server (n : Z) (s : sample) (e : text * Z * text * service) : Prop :=
  let p := sm_service s in let q := snd e in
  fst e = (sm_host s, sm_pid s, sm_entity s) /\ sv_rclock q = n /\
  sv_pname q = sv_pname p /\ sv_uname q = sv_uname p /\ sv_sname q = sv_sname p /\ sv_methods q = sv_methods p /\
  sv_port0 q = sv_port0 p /\ sv_port1 q = sv_port1 p /\ sv_version q = 0%Z.
Definition shows_client (n : Z) (s : sample) (e : text * Z * text * client) : Prop :=
  let p := sm_client s in let q := snd e in
  fst e = (sm_host s, sm_pid s, sm_entity s) /\ cl_rclock q = n /\
  cl_pname q = cl_pname p /\ cl_uname q = cl_uname p /\ cl_sname q = cl_sname p /\ cl_methods q = cl_methods p /\
  cl_version q = 0%Z.

(** [l] has exactly one entry for each of the names [x] that is known and fresh. *)
Definition lists {X V} (knows : X -> option (Z * sample * Z) -> Prop) (shows : Z -> sample -> V -> Prop)
    (oldest : Z) (l : list V) : Prop :=
  exists xs, NoDup xs /\
    Forall2 (fun x e => exists n s t, knows x (Some (n, s, t)) /\ (oldest <= t)%Z /\ shows n s e) xs l /\
    forall x n s t, knows x (Some (n, s, t)) -> (oldest <= t)%Z -> In x xs.

(** ** Registrations that no label confuses *)
Definition digits_only (e : text) : Prop := Forall (fun c => 48 <= c <= 57)%Z e.
Definition ends_in_digit (n : text) : Prop := exists a c, n = a ++ [c] /\ (48 <= c <= 57)%Z.
Definition orderly_one (k : kind) (s : sample) : Prop :=
  ~ ends_in_digit (called k s) /\ digits_only (sm_entity s) /\ (0 <= sm_pid s < 2147483648)%Z.
Definition of_kind (k : kind) (s : sample) : Prop := sm_cmd s = announces k \/ sm_cmd s = withdraws k.
Definition orderly (k : kind) (h : list (Z * mop)) : Prop :=
  (forall t s, In (t, MSample s) h -> of_kind k s -> orderly_one k s) /\
  (forall t s t' s', In (t, MSample s) h -> In (t', MSample s') h -> of_kind k s -> of_kind k s' ->
     match k with
     | KProcess => sm_host s = sm_host s'
     | KPublisher | KSubscriber => sm_entity s = sm_entity s' -> sm_host s = sm_host s' /\ sm_pid s = sm_pid s'
     | KServer | KClient => sm_host s = sm_host s' /\ length (sm_entity s) = length (sm_entity s')
     end).

(** ** For examples *)
(** Patterns without special characters: match the name, ignoring case. *)
Definition literal (p : text) : option (text -> bool) := Some (fun n => eqb (map lower (c_str p)) (map lower n)).
(** A sample with the given identity in whichever part its command refers to. *)
Definition somebody (c : cmd) (host : text) (pid : Z) (name id : text) : sample :=
  Sample id pid host c [] [] (Process 0 [] name [] [] 0 0 [] 0 [] 0 [] []) (Service 0 [] [] name [] 0 0 0)
    (Client 0 [] [] name [] 0) (Topic 0 [] [] [] name [] dt0 [] 0 0 0 0 0 0 0 []).
(** The number of entries of a kind. *)
Definition number_of (k : kind) (l : monitoring) : nat :=
  match k with
  | KProcess => length (mn_processes l) | KPublisher => length (mn_publisher l)
  | KSubscriber => length (mn_subscriber l) | KServer => length (mn_server l) | KClient => length (mn_clients l)
  end.
