(** Model of the description gate, which keeps the listings of topics and services
    (ecal/core/src/ecal_descgate.cpp and .h), and of the functions of the public API
    that report topics, services and their type information
    (ecal/core/src/ecal_util.cpp, ecal/core/include/ecal/ecal_util.h).
    All clock readings inside one call are taken to give the same value; calls on one
    map are serialised by its mutex. *)
From Verif Require Import Base Sample ExpMapModel.

(** ** std::stoull(str) with base 10 *)

(** isspace in the "C" locale. *)
Definition is_space (c : Z) : bool := (c =? 32)%Z || ((9 <=? c)%Z && (c <=? 13)%Z).
Definition is_digit (c : Z) : bool := ((48 <=? c)%Z && (c <=? 57)%Z).
Fixpoint skip_space (s : text) : text :=
  match s with [] => [] | c :: r => if is_space c then skip_space r else s end.
(** Value and number of the digits read from the front. *)
Fixpoint read_digits (acc : Z) (s : text) : Z :=
  match s with
  | [] => acc
  | c :: r => if is_digit c then read_digits (acc * 10 + (c - 48))%Z r else acc
  end.
Definition two64 : Z := 18446744073709551616.
Inductive parsed := PVal (n : Z) | PInvalid | PRange.
(** strtoull with the checks of std::stoull: std::invalid_argument without a digit,
    std::out_of_range for a magnitude of 2^64 or more.  A minus sign negates modulo 2^64. *)
Definition stoull (s : text) : parsed :=
  let s1 := skip_space s in
  let '(neg, s2) := match s1 with
                    | 45%Z :: r => (true, r)
                    | 43%Z :: r => (false, r)
                    | _ => (false, s1)
                    end in
  match s2 with
  | c :: _ =>
      if is_digit c then
        let v := read_digits 0 s2 in
        if (v <? two64)%Z then PVal (if neg then (- v) mod two64 else v)%Z else PRange
      else PInvalid
  | [] => PInvalid
  end.

(** ** Entries *)

(** DescQualityFlags, ecal_util.h 43-50, and GetDataTypeInfoQuality, ecal_descgate.cpp 30-42. *)
Definition is_empty (t : text) : bool := match t with [] => true | _ => false end.
Definition dg_quality (d : datatype) (producer : bool) : Z :=
  Z.lor (Z.lor (Z.lor (if is_empty (dt_name d) then 0 else 2)
                      (if is_empty (dt_encoding d) then 0 else 4))
               (if is_empty (dt_desc d) then 0 else 8))
        (if producer then 1 else 0).

(** SQualityTopicInfo and SQualityServiceInfo, ecal_util.h 61-88. *)
Record tinfo := TInfo { ti_id : Z; ti_info : datatype; ti_quality : Z }.
Record sinfo := SInfo { si_id : Z; si_req : datatype; si_resp : datatype; si_reqq : Z; si_respq : Z }.
(** Default-constructed values. *)
Definition tinfo0 := TInfo 0 dt0 0.
Definition sinfo0 := SInfo 0 dt0 dt0 0 0.

(** STopicIdKey and SServiceIdKey, ecal_descgate.h 40-62. *)
Notation tkey := (list Z * Z)%type.
Notation skey := ((list Z * list Z) * Z)%type.

(** The four maps of CDescGate, ecal_descgate.h 135-140. *)
Record dgate := DGate {
  dg_pub : emap tkey tinfo; dg_sub : emap tkey tinfo;
  dg_srv : emap skey sinfo; dg_cli : emap skey sinfo }.
(** Constructor, ecal_descgate.cpp 46-52. *)
Definition dg_new (timeout : Z) : dgate := DGate (em_new timeout) (em_new timeout) (em_new timeout) (em_new timeout).

(** Result of a call: an exception that nobody catches, undefined behaviour (a dangling
    iterator), or a value. *)
Inductive dres (A : Type) := DOk (a : A) | DThrow | DUB.
Arguments DOk {A}. Arguments DThrow {A}. Arguments DUB {A}.
Definition dbind {A B} (r : dres A) (f : A -> dres B) : dres B :=
  match r with DOk a => f a | DThrow => DThrow | DUB => DUB end.
Definition of_opt {A} (o : option A) : dres A := match o with Some a => DOk a | None => DUB end.

(** ApplyTopicDescription, ecal_descgate.cpp 164-183. *)
Definition topic_apply (now : Z) (k : tkey) (v : tinfo) (m : emap tkey tinfo) : dres (emap tkey tinfo) :=
  of_opt (em_index tinfo0 now k (fun _ => v) (fst (em_erase_expired now m))).

(** RemTopicDescription, lines 190-195. *)
Definition topic_remove (now : Z) (k : tkey) (m : emap tkey tinfo) : dres (emap tkey tinfo) :=
  of_opt (match em_erase k (fst (em_erase_expired now m)) with Some (m', _) => Some m' | None => None end).

(** ApplyServiceDescription, lines 197-218. *)
Definition service_apply (now : Z) (k : skey) (v : sinfo) (m : emap skey sinfo) : dres (emap skey sinfo) :=
  of_opt (em_index sinfo0 now k (fun _ => v) (fst (em_erase_expired now m))).

(** RemServiceDescription, lines 220-241: collect the keys of the service, then erase them. *)
Fixpoint erase_all (ks : list skey) (m : emap skey sinfo) : option (emap skey sinfo) :=
  match ks with
  | [] => Some m
  | k :: ks' => match em_erase k m with Some (m', _) => erase_all ks' m' | None => None end
  end.
Definition service_keys (name : text) (id : Z) (m : emap skey sinfo) : list skey :=
  filter (fun k => eqb (fst (fst k)) name && Z.eqb (snd k) id) (map fst (em_contents m)).
Definition service_remove (now : Z) (name : text) (id : Z) (m : emap skey sinfo) : dres (emap skey sinfo) :=
  let m1 := fst (em_erase_expired now m) in of_opt (erase_all (service_keys name id m1) m1).

(** One method of a registered service (lines 116-131) or client (135-144): the id is
    parsed anew for every method. *)
Definition method_info (producer : bool) (id : Z) (m : method) : sinfo :=
  let rq := DataType (me_req_type m) [] (me_req_desc m) in
  let rs := DataType (me_resp_type m) [] (me_resp_desc m) in
  SInfo id rq rs (dg_quality rq producer) (dg_quality rs producer).
Fixpoint methods_apply (now : Z) (name : text) (e : text) (producer : bool) (ms : list method)
    (m : emap skey sinfo) : dres (emap skey sinfo) :=
  match ms with
  | [] => DOk m
  | me :: ms' =>
      match stoull e with
      | PVal id =>
          dbind (service_apply now (name, me_name me, id) (method_info producer id me) m)
                (methods_apply now name e producer ms')
      | _ => DThrow
      end
  end.

(** The id argument of the other cases. *)
Definition with_id {A} (e : text) (f : Z -> dres A) : dres A :=
  match stoull e with PVal id => f id | _ => DThrow end.
Definition topic_info (producer : bool) (id : Z) (d : datatype) : tinfo := TInfo id d (dg_quality d producer).

Definition put_pub (g : dgate) m := DGate m (dg_sub g) (dg_srv g) (dg_cli g).
Definition put_sub (g : dgate) m := DGate (dg_pub g) m (dg_srv g) (dg_cli g).
Definition put_srv (g : dgate) m := DGate (dg_pub g) (dg_sub g) m (dg_cli g).
Definition put_cli (g : dgate) m := DGate (dg_pub g) (dg_sub g) (dg_srv g) m.
Definition dmap {A B} (f : A -> B) (r : dres A) : dres B := dbind r (fun a => DOk (f a)).

(** ApplySample, lines 107-170. *)
Definition dg_apply (now : Z) (s : sample) (g : dgate) : dres dgate :=
  let e := sm_entity s in
  let t := sm_topic s in
  match sm_cmd s with
  | bct_none | bct_set_sample | bct_reg_process | bct_unreg_process => DOk g
  | bct_reg_service =>
      dmap (put_srv g) (methods_apply now (sv_sname (sm_service s)) e true (sv_methods (sm_service s)) (dg_srv g))
  | bct_unreg_service =>
      with_id e (fun id => dmap (put_srv g) (service_remove now (sv_sname (sm_service s)) id (dg_srv g)))
  | bct_reg_client =>
      dmap (put_cli g) (methods_apply now (cl_sname (sm_client s)) e false (cl_methods (sm_client s)) (dg_cli g))
  | bct_unreg_client =>
      with_id e (fun id => dmap (put_cli g) (service_remove now (cl_sname (sm_client s)) id (dg_cli g)))
  | bct_reg_publisher =>
      with_id e (fun id => dmap (put_pub g) (topic_apply now (tp_tname t, id) (topic_info true id (tp_dtype t)) (dg_pub g)))
  | bct_unreg_publisher =>
      with_id e (fun id => dmap (put_pub g) (topic_remove now (tp_tname t, id) (dg_pub g)))
  | bct_reg_subscriber =>
      with_id e (fun id => dmap (put_sub g) (topic_apply now (tp_tname t, id) (topic_info false id (tp_dtype t)) (dg_sub g)))
  | bct_unreg_subscriber =>
      with_id e (fun id => dmap (put_sub g) (topic_remove now (tp_tname t, id) (dg_sub g)))
  | bct_other _ => DOk g
  end.

(** ** Queries *)

(** std::string order. *)
Fixpoint text_ltb (a b : text) : bool :=
  match a, b with
  | _, [] => false
  | [], _ :: _ => true
  | x :: a', y :: b' => (x <? y)%Z || ((x =? y)%Z && text_ltb a' b')
  end.
(** STopicIdKey::operator< and SServiceIdKey::operator<. *)
Definition tkey_ltb (a b : tkey) : bool :=
  text_ltb (fst a) (fst b) || (eqb (fst a) (fst b) && (snd a <? snd b)%Z).
Definition skey_ltb (a b : skey) : bool :=
  text_ltb (fst (fst a)) (fst (fst b)) ||
  (eqb (fst (fst a)) (fst (fst b)) &&
   (text_ltb (snd (fst a)) (snd (fst b)) ||
    (eqb (snd (fst a)) (snd (fst b)) && (snd a <? snd b)%Z))).
(** Iteration order of a std::map: insertion sort of its pairs by key. *)
Section Sort.
  Context {A : Type} (lt : A -> A -> bool).
  Fixpoint put_sorted (x : A) (l : list A) : list A :=
    match l with [] => [x] | y :: l' => if lt x y then x :: l else y :: put_sorted x l' end.
  Fixpoint sort_by (l : list A) : list A :=
    match l with [] => [] | x :: l' => put_sorted x (sort_by l') end.
End Sort.

(** GetTopics, lines 75-88, and GetServices, lines 90-105: purge and list everything.
    The multimap, whose equal keys keep the order of insertion, is the list of its pairs. *)
Definition topics_of (now : Z) (m : emap tkey tinfo) : emap tkey tinfo * list (text * tinfo) :=
  let m' := fst (em_erase_expired now m) in
  (m', map (fun p => (fst (fst p), snd p)) (sort_by (fun a b => tkey_ltb (fst a) (fst b)) (em_contents m'))).
Definition services_of (now : Z) (m : emap skey sinfo) : emap skey sinfo * list ((text * text) * sinfo) :=
  let m' := fst (em_erase_expired now m) in
  (m', map (fun p => (fst (fst p), snd p)) (sort_by (fun a b => skey_ltb (fst a) (fst b)) (em_contents m'))).

(** GetPublishers, GetSubscribers, GetServices, GetClients, lines 55-73. *)
Definition dg_publishers (now : Z) (g : dgate) := let r := topics_of now (dg_pub g) in (put_pub g (fst r), snd r).
Definition dg_subscribers (now : Z) (g : dgate) := let r := topics_of now (dg_sub g) in (put_sub g (fst r), snd r).
Definition dg_services (now : Z) (g : dgate) := let r := services_of now (dg_srv g) in (put_srv g (fst r), snd r).
Definition dg_clients (now : Z) (g : dgate) := let r := services_of now (dg_cli g) in (put_cli g (fst r), snd r).

(** Operations on the gate and their run. *)
Inductive dgop := DSample (s : sample) | DAskPublishers | DAskSubscribers | DAskServices | DAskClients.
Definition dg_step (now : Z) (o : dgop) (g : dgate) : dres dgate :=
  match o with
  | DSample s => dg_apply now s g
  | DAskPublishers => DOk (fst (dg_publishers now g))
  | DAskSubscribers => DOk (fst (dg_subscribers now g))
  | DAskServices => DOk (fst (dg_services now g))
  | DAskClients => DOk (fst (dg_clients now g))
  end.
Fixpoint dg_run (os : list (Z * dgop)) (g : dgate) : dres dgate :=
  match os with
  | [] => DOk g
  | (now, o) :: os' => dbind (dg_step now o g) (dg_run os')
  end.

(** ** ecal_util.cpp *)

(** SQualityTopicInfo::operator< (ecal_util.h 67-70), SQualityServiceInfo::operator< (84-87). *)
Definition tinfo_ltb (a b : tinfo) : bool :=
  (ti_quality a <? ti_quality b)%Z || ((ti_quality a =? ti_quality b)%Z && (ti_id a <? ti_id b)%Z).
Definition sinfo_ltb (a b : sinfo) : bool :=
  (si_reqq a <? si_reqq b)%Z ||
  ((si_reqq a =? si_reqq b)%Z &&
   ((si_respq a <? si_respq b)%Z || ((si_respq a =? si_respq b)%Z && (si_id a <? si_id b)%Z))).
(** std::set::insert: keeps the old element if an equivalent one is present. *)
Section Set_.
  Context {A : Type} (lt : A -> A -> bool).
  Fixpoint set_insert (x : A) (l : list A) : list A :=
    match l with
    | [] => [x]
    | y :: l' => if lt x y then x :: l else if lt y x then y :: set_insert x l' else l
    end.
  Definition set_all (xs : list A) (l : list A) : list A := fold_left (fun l x => set_insert x l) xs l.
End Set_.

(** Values with a given key. *)
Definition with_name {N V} `{EqDec N} (n : N) (l : list (N * V)) : list V :=
  map snd (filter (fun p => eqb (fst p) n) l).

(** GetHighestQualityDataTypeInformation, lines 321-332. *)
Definition best_topic (l : list tinfo) : tinfo :=
  fold_left (fun b i => if (ti_quality b <? ti_quality i)%Z then i else b) l tinfo0.

(** GetTopicDataTypeInformation, lines 406-415; the set functions are lines 42-53. *)
Definition ut_type_info (n : text) (pubs subs : list (text * tinfo)) : bool * datatype :=
  let s1 := set_all tinfo_ltb (with_name n pubs) [] in
  let s := set_all tinfo_ltb (set_all tinfo_ltb (with_name n subs) []) s1 in
  (negb (match s with [] => true | _ => false end), ti_info (best_topic s)).

(** ReduceQualityTopicIdMap, lines 88-114. *)
Definition reduce_topic (m : list (text * tinfo)) (p : text * tinfo) : list (text * tinfo) :=
  match aget (fst p) m with
  | Some b => if (ti_quality b <? ti_quality (snd p))%Z then aset (fst p) (snd p) m else m
  | None => aset (fst p) (snd p) m
  end.
(** GetTopics, lines 360-385: the subscribers are inserted into the multimap of the
    publishers, each after the entries with the same name. *)
Definition ut_topics (pubs subs : list (text * tinfo)) : list (text * tinfo) :=
  fold_left reduce_topic (pubs ++ subs) [].

(** GetTopicNames, lines 387-404. *)
Definition ut_topic_names (pubs subs : list (text * tinfo)) : list text :=
  set_all text_ltb (map fst subs) (set_all text_ltb (map fst pubs) []).

(** GetHighestQualityServiceMethodInformation, lines 346-358. *)
Definition better_service (b i : sinfo) : bool := (si_reqq b <? si_reqq i)%Z || (si_respq b <? si_respq i)%Z.
Definition best_service (l : list sinfo) : sinfo :=
  fold_left (fun b i => if better_service b i then i else b) l sinfo0.

(** GetServiceTypeNames and GetServiceDescription, lines 454-474 (GetClientTypeNames and
    GetClientDescription, 513-533, do the same on the clients): found, request, response. *)
Definition ut_method_info (n : text * text) (srvs : list ((text * text) * sinfo)) : bool * sinfo :=
  let s := set_all sinfo_ltb (with_name n srvs) [] in
  (negb (match s with [] => true | _ => false end), best_service s).

(** ReduceQualityServiceIdMap, lines 125-156, and GetServices / GetClients, 431-438 and 490-497. *)
Definition reduce_service (m : list ((text * text) * sinfo)) (p : (text * text) * sinfo) :=
  match aget (fst p) m with
  | Some b => if better_service b (snd p) then aset (fst p) (snd p) m else m
  | None => aset (fst p) (snd p) m
  end.
Definition ut_services (srvs : list ((text * text) * sinfo)) : list ((text * text) * sinfo) :=
  fold_left reduce_service srvs [].
