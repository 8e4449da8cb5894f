(** Model of eCAL::Util::CExpirationMap (ecal/core/src/util/ecal_expmap.h).
    A std::list iterator is modelled by the unique number of its node.
    The std::map is an association list; its iteration order is not modelled.
    The clock value read by get_curr_time() (lines 372-375) is an argument. *)
From Verif Require Import Base.

Section ExpMap.
  Context {K V : Type} `{EqDec K}.

  (** AccessTimestampListEntry, lines 77-81, with the node identity. *)
  Record cell := Cell { c_id : nat; c_ts : Z; c_key : K }.

  (** InternalMapEntry, lines 86-90. *)
  Record mentry := MEntry { m_val : V; m_it : nat }.

  (** Data members, lines 377-384 ([e_next] only numbers list nodes). *)
  Record emap := EMap {
    e_list : list cell;             (* _access_timestamps_list, oldest first *)
    e_map : list (K * mentry);      (* _internal_map *)
    e_timeout : Z;                  (* _timeout *)
    e_next : nat }.

  (** Constructor, line 183. *)
  Definition em_new (timeout : Z) : emap := EMap [] [] timeout 0.

  (** set_expiration, line 188. *)
  Definition em_set_expiration (t : Z) (s : emap) : emap :=
    EMap (e_list s) (e_map s) t (e_next s).

  (** find, lines 287-295: does not touch the time stamp. *)
  Definition em_find (k : K) (s : emap) : option V :=
    match aget k (e_map s) with Some e => Some (m_val e) | None => None end.

  (** size / empty / iteration, lines 191-229: the stored pairs. *)
  Definition em_contents (s : emap) : list (K * V) :=
    map (fun p => (fst p, m_val (snd p))) (e_map s).

  (** std::list node lookup by iterator. *)
  Definition find_cell (i : nat) (l : list cell) : option cell :=
    find (fun c => Nat.eqb (c_id c) i) l.
  Definition drop_cell (i : nat) (l : list cell) : list cell :=
    filter (fun c => negb (Nat.eqb (c_id c) i)) l.

  (** insert(k, v), lines 356-370: a list node is always appended, the map entry
      is only created if the key is absent (std::map::emplace). *)
  Definition em_insert (now : Z) (k : K) (v : V) (s : emap) : emap :=
    let node := Cell (e_next s) now k in
    EMap (e_list s ++ [node])
         (match aget k (e_map s) with
          | Some _ => e_map s
          | None => e_map s ++ [(k, MEntry v (e_next s))]
          end)
         (e_timeout s) (S (e_next s)).

  (** update_timestamp, lines 340-353: splice the node to the end, stamp it.
      A dangling iterator (undefined behaviour in C++) gives None. *)
  Definition em_update_timestamp (now : Z) (k : K) (s : emap) : option emap :=
    match aget k (e_map s) with
    | None => Some s
    | Some e =>
        match find_cell (m_it e) (e_list s) with
        | None => None
        | Some c => Some (EMap (drop_cell (m_it e) (e_list s) ++ [Cell (c_id c) now (c_key c)])
                               (e_map s) (e_timeout s) (e_next s))
        end
    end.

  (** operator[], lines 243-267, followed by the caller's assignment through the
      returned reference: [f] maps the referenced value to the assigned one. *)
  Definition em_index (dflt : V) (now : Z) (k : K) (f : V -> V) (s : emap) : option emap :=
    match aget k (e_map s) with
    | None =>
        let s1 := em_insert now k dflt s in
        Some (EMap (e_list s1) (aset k (MEntry (f dflt) (e_next s)) (e_map s1))
                   (e_timeout s1) (e_next s1))
    | Some e =>
        match em_update_timestamp now k s with
        | None => None
        | Some s1 => Some (EMap (e_list s1) (aset k (MEntry (f (m_val e)) (m_it e)) (e_map s1))
                                (e_timeout s1) (e_next s1))
        end
    end.

  (** erase_expired, lines 303-315: pops list nodes from the front while they are
      older than the limit; also returns the keys of the popped nodes. *)
  Fixpoint em_evict (limit : Z) (l : list cell) (m : list (K * mentry)) (out : list K)
    : list cell * list (K * mentry) * list K :=
    match l with
    | [] => ([], m, out)
    | c :: l' =>
        if Z.ltb (c_ts c) limit
        then em_evict limit l' (adel (c_key c) m) (out ++ [c_key c])
        else (l, m, out)
    end.
  Definition em_erase_expired (now : Z) (s : emap) : emap * list K :=
    let '(l, m, out) := em_evict (now - e_timeout s)%Z (e_list s) (e_map s) [] in
    (EMap l m (e_timeout s) (e_next s), out).

  (** erase(k), lines 318-328; a dangling iterator gives None. *)
  Definition em_erase (k : K) (s : emap) : option (emap * bool) :=
    match aget k (e_map s) with
    | None => Some (s, false)
    | Some e =>
        match find_cell (m_it e) (e_list s) with
        | None => None
        | Some _ => Some (EMap (drop_cell (m_it e) (e_list s)) (adel k (e_map s))
                               (e_timeout s) (e_next s), true)
        end
    end.

  (** clear, lines 331-335. *)
  Definition em_clear (s : emap) : emap := EMap [] [] (e_timeout s) (e_next s).

  (** One operation of a user of the map. *)
  Inductive emop :=
  | OIndex (now : Z) (k : K) (f : V -> V)   (* map[k] = f(map[k]) *)
  | OInsert (now : Z) (k : K) (v : V)       (* map.insert({k, v}), line 280 *)
  | OErase (k : K)
  | OExpire (now : Z)
  | OClear
  | OFind (k : K)
  | OSetExpiration (t : Z).

  (** A step; None is undefined behaviour. *)
  Definition em_step (dflt : V) (o : emop) (s : emap) : option emap :=
    match o with
    | OIndex now k f => em_index dflt now k f s
    | OInsert now k v => Some (em_insert now k v s)
    | OErase k => match em_erase k s with Some (s', _) => Some s' | None => None end
    | OExpire now => Some (fst (em_erase_expired now s))
    | OClear => Some (em_clear s)
    | OFind _ => Some s
    | OSetExpiration t => Some (em_set_expiration t s)
    end.

  Fixpoint em_run (dflt : V) (os : list emop) (s : emap) : option emap :=
    match os with
    | [] => Some s
    | o :: os' => match em_step dflt o s with Some s' => em_run dflt os' s' | None => None end
    end.
End ExpMap.
Arguments cell : clear implicits.
Arguments mentry : clear implicits.
Arguments emap : clear implicits.
Arguments emop : clear implicits.
