(** Model of the monitoring (ecal/core/src/monitoring/ecal_monitoring_impl.cpp and .h).
    All clock readings inside one call are taken to give the same value; calls on one table
    are serialised by its mutex, the filter strings are only touched by one thread.  The
    registration counter of an entry (an int32_t) is not bounded.  Iteration order of the
    tables is not modelled. *)
From Verif Require Import Base Sample ExpMapModel DscModel SerModel.
From Verif Require McModel.

(** ** Keys *)

(** std::to_string(int). *)
Definition int_text (z : Z) : text :=
  if (z <? 0)%Z then 45%Z :: McModel.to_string (- z) else McModel.to_string z.
(** Lines 378 and 415: process_name_id. *)
Definition process_key (s : sample) : text := pr_pname (sm_process s) ++ int_text (sm_pid s).
(** Lines 279 and 351: topic_name_id. *)
Definition topic_key (s : sample) : text := tp_tname (sm_topic s) ++ sm_entity s.
(** Lines 442 and 488: service_name_id of a server; lines 512 and 556 of a client. *)
Definition server_key (s : sample) : text := sv_sname (sm_service s) ++ sm_entity s ++ int_text (sm_pid s).
Definition client_key (s : sample) : text := cl_sname (sm_client s) ++ sm_entity s ++ int_text (sm_pid s).

(** ** Entries *)

(** SProcessMon, STopicMon, SServerMon, SClientMon as in SerModel: host name, process id,
    entity id and the registered data. *)
Notation pmon := (list Z * Z * process)%type.
Notation tmon := (list Z * Z * list Z * topic)%type.
Notation smon := (list Z * Z * list Z * service)%type.
Notation cmon := (list Z * Z * list Z * client)%type.
Definition pmon0 : pmon := ([], 0%Z, process0).
Definition tmon0 : tmon := ([], 0%Z, [], topic0).
Definition smon0 : smon := ([], 0%Z, [], service0).
Definition cmon0 : cmon := ([], 0%Z, [], client0).

(** Lines 386-403. *)
Definition put_process (s : sample) (old : pmon) : pmon :=
  let p := sm_process s in
  (sm_host s, sm_pid s,
   Process (pr_rclock (snd old) + 1) (pr_hgname p) (pr_pname p) (pr_uname p) (pr_pparam p)
     (pr_severity p) (pr_severity_level p) (pr_info p)
     (pr_tsync_state p) (pr_tsync_mod p) (pr_comp_state p) (pr_comp_info p) (pr_version p)).

(** Lines 207-212: is a layer of this type active? *)
Definition layer_active (ty : ltype) (ls : list tlayer) : bool :=
  fold_left (fun b l => b || (eqb (ly_type l) ty && ly_active l)) ls false.
(** Lines 301-323. *)
Definition mon_layers (ls : list tlayer) : list tlayer :=
  map (fun ty => TLayer ty 0 false (layer_active ty ls) 0 []) [tl_udp; tl_shm; tl_tcp].
(** Lines 258-268: the direction; lines 282-331. *)
Definition put_topic (dir : text) (s : sample) (old : tmon) : tmon :=
  let t := sm_topic s in
  (sm_host s, sm_pid s, sm_entity s,
   Topic (tp_rclock (snd old) + 1) (tp_hgname t) (tp_pname t) (tp_uname t) (tp_tname t) dir
     (tp_dtype t) (mon_layers (tp_layers t)) (tp_tsize t)
     (tp_conn_loc t) (tp_conn_ext t) (tp_drops t) (tp_did t) (tp_dclock t) (tp_dfreq t) (tp_attr t)).

(** Lines 450-473; the version is not assigned. *)
Definition put_server (s : sample) (old : smon) : smon :=
  let v := sm_service s in
  (sm_host s, sm_pid s, sm_entity s,
   Service (sv_rclock (snd old) + 1) (sv_pname v) (sv_uname v) (sv_sname v) (sv_methods v)
     (sv_version (snd old)) (sv_port0 v) (sv_port1 v)).
(** Lines 520-541; the version is not assigned. *)
Definition put_client (s : sample) (old : cmon) : cmon :=
  let v := sm_client s in
  (sm_host s, sm_pid s, sm_entity s,
   Client (cl_rclock (snd old) + 1) (cl_pname v) (cl_uname v) (cl_sname v) (cl_methods v)
     (cl_version (snd old))).

(** ** Filters *)

(** Tokenize(str, tokens, ",;", true), lines 771-798: the pieces between delimiters, empty
    ones dropped; [cur] is the piece read so far. *)
Definition is_delim (c : Z) : bool := (c =? 44)%Z || (c =? 59)%Z.
Definition piece (cur : text) : list text := match cur with [] => [] | _ => [cur] end.
Fixpoint pieces (cur s : text) : list text :=
  match s with
  | [] => piece cur
  | c :: r => if is_delim c then piece cur ++ pieces [] r else pieces (cur ++ [c]) r
  end.
Definition mon_tokens (s : text) : list text := pieces [] s.

(** InsensitiveCompare, ecal_monitoring_impl.h 128-139: strcasecmp of the C strings, which
    end at the first zero byte. *)
Definition lower (c : Z) : Z := if ((65 <=? c) && (c <=? 90))%Z then (c + 32)%Z else c.
Fixpoint c_str (s : text) : text :=
  match s with [] => [] | c :: r => if (c =? 0)%Z then [] else c :: c_str r end.
Definition icase_ltb (a b : text) : bool := text_ltb (map lower (c_str a)) (map lower (c_str b)).

Section Monitoring.
(** std::regex(pattern, icase): None if the constructor throws std::regex_error; the
    function is std::regex_match with the compiled expression. *)
Variable compile : text -> option (text -> bool).

(** Is there a match, trying the expressions in the order of the set?  Every expression is
    compiled when its turn comes. *)
Fixpoint any_match (name : text) (ps : list text) : dres bool :=
  match ps with
  | [] => DOk false
  | p :: ps' =>
      match compile p with
      | None => DThrow
      | Some f => if f name then DOk true else any_match name ps'
      end
  end.

(** Data members, ecal_monitoring_impl.h 151-167. *)
Record mon := Monitor {
  mo_excl_s : text; mo_excl : list text;
  mo_incl_s : text; mo_incl : list text;
  mo_proc : emap (list Z) pmon; mo_pub : emap (list Z) tmon; mo_sub : emap (list Z) tmon;
  mo_srv : emap (list Z) smon; mo_cli : emap (list Z) cmon }.

(** Lines 219-245. *)
Definition admit (name : text) (m : mon) : dres bool :=
  dbind (any_match name (mo_excl m)) (fun ex =>
    if ex then DOk false
    else if match mo_incl m with [] => true | _ => false end then DOk true
    else any_match name (mo_incl m)).

(** SetExclFilter, SetInclFilter, lines 81-89. *)
Definition set_excl (f : text) (m : mon) : mon :=
  Monitor f (mo_excl m) (mo_incl_s m) (mo_incl m) (mo_proc m) (mo_pub m) (mo_sub m) (mo_srv m) (mo_cli m).
Definition set_incl (f : text) (m : mon) : mon :=
  Monitor (mo_excl_s m) (mo_excl m) f (mo_incl m) (mo_proc m) (mo_pub m) (mo_sub m) (mo_srv m) (mo_cli m).
(** SetFilterState, lines 91-118: the new tokens are added to the old ones. *)
Definition set_state (b : bool) (m : mon) : mon :=
  let ex := if b then set_all icase_ltb (mon_tokens (mo_excl_s m)) (mo_excl m) else [] in
  let inc := if b then set_all icase_ltb (mon_tokens (mo_incl_s m)) (mo_incl m) else [] in
  Monitor (mo_excl_s m) ex (mo_incl_s m) inc (mo_proc m) (mo_pub m) (mo_sub m) (mo_srv m) (mo_cli m).

(** Constructor (lines 44-52) and Create (lines 54-72) with the configured filters. *)
Definition mon_create (timeout : Z) (excl incl : text) : mon :=
  set_state true
    (Monitor excl [] incl [] (em_new timeout) (em_new timeout) (em_new timeout) (em_new timeout) (em_new timeout)).

Definition with_proc (m : mon) t :=
  Monitor (mo_excl_s m) (mo_excl m) (mo_incl_s m) (mo_incl m) t (mo_pub m) (mo_sub m) (mo_srv m) (mo_cli m).
Definition with_pub (m : mon) t :=
  Monitor (mo_excl_s m) (mo_excl m) (mo_incl_s m) (mo_incl m) (mo_proc m) t (mo_sub m) (mo_srv m) (mo_cli m).
Definition with_sub (m : mon) t :=
  Monitor (mo_excl_s m) (mo_excl m) (mo_incl_s m) (mo_incl m) (mo_proc m) (mo_pub m) t (mo_srv m) (mo_cli m).
Definition with_srv (m : mon) t :=
  Monitor (mo_excl_s m) (mo_excl m) (mo_incl_s m) (mo_incl m) (mo_proc m) (mo_pub m) (mo_sub m) t (mo_cli m).
Definition with_cli (m : mon) t :=
  Monitor (mo_excl_s m) (mo_excl m) (mo_incl_s m) (mo_incl m) (mo_proc m) (mo_pub m) (mo_sub m) (mo_srv m) t.

(** The tables: an entry is created or found with operator[] and assigned; it is erased; or
    the expired ones are purged and all others listed. *)
Section Table.
  Context {V : Type}.
  Definition enter (dflt : V) (now : Z) (k : text) (f : V -> V) (m : emap (list Z) V) : dres (emap (list Z) V) :=
    of_opt (em_index dflt now k f m).
  Definition leave (k : text) (m : emap (list Z) V) : dres (emap (list Z) V) :=
    of_opt (match em_erase k m with Some (m', _) => Some m' | None => None end).
  Definition purge (look : bool) (now : Z) (m : emap (list Z) V) : emap (list Z) V :=
    if look then fst (em_erase_expired now m) else m.
  Definition entries (look : bool) (m : emap (list Z) V) : list V :=
    if look then map snd (em_contents m) else [].
End Table.

(** RegisterTopic, lines 197-335. *)
Definition reg_pub (now : Z) (s : sample) (m : mon) : dres mon :=
  dbind (admit (tp_tname (sm_topic s)) m) (fun ok =>
    if ok then dmap (with_pub m) (enter tmon0 now (topic_key s) (put_topic (str "publisher") s) (mo_pub m)) else DOk m).
Definition reg_sub (now : Z) (s : sample) (m : mon) : dres mon :=
  dbind (admit (tp_tname (sm_topic s)) m) (fun ok =>
    if ok then dmap (with_sub m) (enter tmon0 now (topic_key s) (put_topic (str "subscriber") s) (mo_sub m)) else DOk m).

(** ApplySample, lines 120-195, with RegisterProcess 358-406, UnregisterProcess 408-424,
    RegisterServer 426-476, UnregisterServer 478-497, RegisterClient 499-544,
    UnregisterClient 546-565 and UnregisterTopic 337-356. *)
Definition mon_apply (now : Z) (s : sample) (m : mon) : dres mon :=
  match sm_cmd s with
  | bct_none | bct_set_sample => DOk m
  | bct_reg_process => dmap (with_proc m) (enter pmon0 now (process_key s) (put_process s) (mo_proc m))
  | bct_unreg_process => dmap (with_proc m) (leave (process_key s) (mo_proc m))
  | bct_reg_service => dmap (with_srv m) (enter smon0 now (server_key s) (put_server s) (mo_srv m))
  | bct_unreg_service => dmap (with_srv m) (leave (server_key s) (mo_srv m))
  | bct_reg_client => dmap (with_cli m) (enter cmon0 now (client_key s) (put_client s) (mo_cli m))
  | bct_unreg_client => dmap (with_cli m) (leave (client_key s) (mo_cli m))
  | bct_reg_publisher => reg_pub now s m
  | bct_unreg_publisher => dmap (with_pub m) (leave (topic_key s) (mo_pub m))
  | bct_reg_subscriber => reg_sub now s m
  | bct_unreg_subscriber => dmap (with_sub m) (leave (topic_key s) (mo_sub m))
  | bct_other _ => DOk m
  end.

(** Entity, ecal/types/monitoring.h 40-54: the bits of the entity mask. *)
Definition wants (bit : Z) (ents : Z) : bool := negb (Z.land ents bit =? 0)%Z.
(** GetMonitoring(SMonitoring&, entities), lines 616-707. *)
Definition mon_get (now ents : Z) (m : mon) : mon * monitoring :=
  let m' := Monitor (mo_excl_s m) (mo_excl m) (mo_incl_s m) (mo_incl m)
              (purge (wants 16 ents) now (mo_proc m)) (purge (wants 1 ents) now (mo_pub m))
              (purge (wants 2 ents) now (mo_sub m)) (purge (wants 4 ents) now (mo_srv m))
              (purge (wants 8 ents) now (mo_cli m)) in
  (m', Mon (entries (wants 16 ents) (mo_proc m')) (entries (wants 1 ents) (mo_pub m'))
           (entries (wants 2 ents) (mo_sub m')) (entries (wants 4 ents) (mo_srv m'))
           (entries (wants 8 ents) (mo_cli m'))).
(** GetMonitoring(std::string&, entities), lines 582-614, with MonitorProcs, MonitorTopics,
    MonitorServer and MonitorClients (709-769): the same lists, serialised. *)
Definition mon_get_buffer (now ents : Z) (m : mon) : mon * list Z :=
  let '(m', l) := mon_get now ents m in (m', ser_mon l).

(** Operations and their run. *)
Inductive mop := MSample (s : sample) | MLook (ents : Z) | MExcl (f : text) | MIncl (f : text) | MState (b : bool).
Definition mon_step (now : Z) (o : mop) (m : mon) : dres mon :=
  match o with
  | MSample s => mon_apply now s m
  | MLook ents => DOk (fst (mon_get now ents m))
  | MExcl f => DOk (set_excl f m)
  | MIncl f => DOk (set_incl f m)
  | MState b => DOk (set_state b m)
  end.
Fixpoint mon_run (os : list (Z * mop)) (m : mon) : dres mon :=
  match os with
  | [] => DOk m
  | (now, o) :: os' => dbind (mon_step now o m) (mon_run os')
  end.
End Monitoring.
