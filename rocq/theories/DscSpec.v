(** Vocabulary for the listings of topics and services: which number an entity id
    denotes, which registrations are alive, how good a type description is. *)
From Verif Require Import Base Sample DscModel.

(** ** Numbers *)
Definition digit (c : Z) : Prop := (48 <= c <= 57)%Z.
Definition blank (c : Z) : Prop := c = 32%Z \/ (9 <= c <= 13)%Z.
(** The number a sequence of decimal digits stands for. *)
Definition decimal (ds : text) : Z := fold_left (fun n c => n * 10 + (c - 48))%Z ds 0%Z.
Definition max64 : Z := 18446744073709551615.

(** The text starts, after blanks and an optional sign, with a number of at most 64 bits. *)
Definition reads (e : text) (n : Z) : Prop :=
  exists bs sign ds rest,
    e = bs ++ sign ++ ds ++ rest /\ Forall blank bs /\
    (sign = [] \/ sign = [43%Z] \/ sign = [45%Z]) /\
    ds <> [] /\ Forall digit ds /\
    (match rest with [] => True | c :: _ => ~ digit c end) /\
    (decimal ds <= max64)%Z /\
    n = (if eqb sign [45%Z] then (- decimal ds) mod (max64 + 1) else decimal ds)%Z.

(** What eCAL itself announces: the digits of a number of at most 64 bits without
    leading zeros. *)
Definition plain (e : text) : Prop :=
  e <> [] /\ Forall digit e /\ (decimal e <= max64)%Z /\
  (match e with 48%Z :: r => r = [] | _ => True end).

(** ** Histories *)
(** The clock does not run backwards. *)
Fixpoint upwards (ts : list Z) : Prop :=
  match ts with
  | a :: (b :: _) as r => (a <= b)%Z /\ upwards r
  | _ => True
  end.

(** The registration samples of a history of operations, with their times. *)
Definition samples (os : list (Z * dgop)) : list (Z * sample) :=
  flat_map (fun p => match snd p with DSample s => [(fst p, s)] | _ => [] end) os.

(** In the history [h] of (time, sample), the latest sample of a publisher (or
    subscriber) of topic [name] with number [n] is a registration with type [d], and it is
    not older than the timeout.  [reg] is the registering command, [cmds] both commands. *)
Definition topic_alive (reg : cmd) (cmds : cmd -> bool) (h : list (Z * sample)) (timeout now : Z)
    (name : text) (n : Z) (d : datatype) : Prop :=
  exists h1 t s h2,
    h = h1 ++ (t, s) :: h2 /\
    sm_cmd s = reg /\ tp_tname (sm_topic s) = name /\ reads (sm_entity s) n /\ tp_dtype (sm_topic s) = d /\
    (forall t' s', In (t', s') h2 -> cmds (sm_cmd s') = true -> tp_tname (sm_topic s') = name ->
       ~ reads (sm_entity s') n) /\
    (now - timeout <= t)%Z.

(** The last of the methods called [x]. *)
Definition last_called (x : text) (m : method) (ms : list method) : Prop :=
  exists ms1 ms2, ms = ms1 ++ m :: ms2 /\ me_name m = x /\ forall m', In m' ms2 -> me_name m' <> x.

(** The same for a method of a service (or client): the latest sample that mentions it, or
    that withdraws the service, is a registration describing it as [m].  [part] selects the
    name and the methods from a sample. *)
Definition method_alive (reg unreg : cmd) (part : sample -> text * list method) (h : list (Z * sample))
    (timeout now : Z) (name x : text) (n : Z) (m : method) : Prop :=
  exists h1 t s h2,
    h = h1 ++ (t, s) :: h2 /\
    sm_cmd s = reg /\ fst (part s) = name /\ reads (sm_entity s) n /\ last_called x m (snd (part s)) /\
    (forall t' s', In (t', s') h2 -> fst (part s') = name -> reads (sm_entity s') n ->
       sm_cmd s' <> unreg /\ (sm_cmd s' = reg -> ~ In x (map me_name (snd (part s'))))) /\
    (now - timeout <= t)%Z.
Definition of_service (s : sample) := (sv_sname (sm_service s), sv_methods (sm_service s)).
Definition of_client (s : sample) := (cl_sname (sm_client s), cl_methods (sm_client s)).

(** ** Quality of a description *)
Definition one_if (p : bool) (n : Z) : Z := if p then n else 0%Z.
Definition given (t : text) : bool := negb (eqb t []).
Definition grade (d : datatype) (producer : bool) : Z :=
  (one_if (given (dt_desc d)) 8 + one_if (given (dt_encoding d)) 4 + one_if (given (dt_name d)) 2 + one_if producer 1)%Z.
Definition request_of (m : method) : datatype := DataType (me_req_type m) [] (me_req_desc m).
Definition response_of (m : method) : datatype := DataType (me_resp_type m) [] (me_resp_desc m).

(** The samples whose entity id is interpreted at all. *)
Definition needs_id (s : sample) : Prop :=
  match sm_cmd s with
  | bct_reg_publisher | bct_unreg_publisher | bct_reg_subscriber | bct_unreg_subscriber
  | bct_unreg_service | bct_unreg_client => True
  | bct_reg_service => sv_methods (sm_service s) <> []
  | bct_reg_client => cl_methods (sm_client s) <> []
  | _ => False
  end.

(** ** Choice of the best description *)
(** [i] is among the entries of [n], none of them is described better, and of equally good
    ones it has the smallest id. *)
Definition best_topic_of (i : tinfo) (n : text) (l : list (text * tinfo)) : Prop :=
  In (n, i) l /\ forall j, In (n, j) l ->
    (ti_quality j < ti_quality i)%Z \/ (ti_quality j = ti_quality i /\ (ti_id i <= ti_id j)%Z).
(** [i] is among the entries of [n], and none is better in the request or in the response. *)
Definition best_method_of (i : sinfo) (n : text * text) (l : list ((text * text) * sinfo)) : Prop :=
  In (n, i) l /\ forall j, In (n, j) l -> (si_reqq j <= si_reqq i)%Z /\ (si_respq j <= si_respq i)%Z.

(** ** Samples for examples *)
Definition topic_sample (c : cmd) (host name e : text) (d : datatype) : sample :=
  Sample e 1 host c [] [] process0 service0 client0 (Topic 0 [] [] [] name [] d [] 0 0 0 0 0 0 0 []).
Definition service_sample (c : cmd) (host name e : text) (ms : list method) : sample :=
  Sample e 1 host c [] [] process0 (Service 0 [] [] name ms 0 0 0) client0 topic0.
