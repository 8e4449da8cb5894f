(** Properties of memory files: C18 (bounds and access windows) and C20 (the table of
    mapped files of a process). *)
From Verif Require Import Base MemModel MemSpec MemProofs.

(** Two processes: 1 creates file 7 with 5000 bytes of data, 2 opens it for reading. *)
Definition ex_setup : list mop :=
  [MNew 0 1; MCreate 0 7 true 5000 true true false; MNew 1 2; MCreate 1 7 false 0 false true false; MGet 0 true false].
Definition ex_state : sys := match m_run ex_setup sys_init with Some (s, _) => s | None => sys_init end.
Definition ex_results (ops : list mop) : option (list mres) :=
  match m_run ops sys_init with Some (_, rs) => Some rs | None => None end.

(** C18: users that keep to the rules of [run_ok] never cause an access outside of a
    mapping, of the file, through a stale address or to read only memory.  Partial: the
    rules are needed, see the refuted statements below. *)
Theorem c18_no_memory_fault_partial : forall lenof ops, run_ok lenof ops sys_init -> m_run ops sys_init <> None.
Proof. exact no_fault_lemma. Qed.
Print Assumptions c18_no_memory_fault_partial.
Example c18_no_memory_fault_case :
  ex_results (ex_setup ++ [MWrite 0 [1; 2; 3]%Z 0; MRelease 0 true; MGet 1 false false; MRead 1 2 1; MRead 1 3 1; MRelease 1 false; MRead 1 1 0])
  = Some [MNone; MBool true; MNone; MBool true; MBool true; MSize 3; MBool true; MBool true; MBytes (Some [2; 3]%Z); MBytes None; MBool true; MBytes None].
Proof. vm_compute. reflexivity. Qed.

Example c18_rules_can_be_kept : run_ok (fun _ => 5000%Z)
  (ex_setup ++ [MWrite 0 [1; 2; 3]%Z 0; MRelease 0 true; MGet 1 false false; MRead 1 2 1; MRelease 1 false; MDestroy 1 false;
                MGet 0 true false; MPayload 0 (PWriter (fun l => (l, true)) (fun l => (map (Z.add 1) l, true))) 3 0 false]) sys_init.
Proof. unfold ex_setup. cbn [app]. run_solve. Qed.

(** C18: a read succeeds exactly inside a read access window and within the reported data
    size; it then returns the bytes of the file, all of them below the end of the file, and
    changes nothing. *)
Theorem c18_read_exactly_in_window_partial : forall lenof ops s rs n o len off,
  run_ok lenof ops sys_init -> m_run ops sys_init = Some (s, rs) -> aget n (s_objs s) = Some o ->
  op_ok lenof s (MRead n len off) ->
  exists x, m_step (MRead n len off) s = Some (s, MBytes x) /\
    (x <> None <-> window n (combine ops rs) = ReadAcc /\ (0 < len + off <= cur_size s n)%Z) /\
    (forall bs, x = Some bs -> exists f, file_of s n = Some f /\ bs = range (f_data f) off len /\ (ihdr_bytes + cur_size s n <= f_size f)%Z).
Proof. exact read_step_lemma. Qed.
Print Assumptions c18_read_exactly_in_window_partial.
Example c18_read_exactly_in_window_case :
  window 0 (combine ex_setup [MNone; MBool true; MNone; MBool true; MBool true]) = WriteAcc /\
  m_step (MRead 0 1 0) ex_state = Some (ex_state, MBytes None).
Proof. split; vm_compute; reflexivity. Qed.

(** C18: a write succeeds exactly inside a write access window and within the capacity;
    it then changes exactly the bytes asked for and records the new data size; otherwise
    it changes nothing. *)
Theorem c18_write_exactly_in_window_partial : forall lenof ops s rs n o bs off,
  run_ok lenof ops sys_init -> m_run ops sys_init = Some (s, rs) -> aget n (s_objs s) = Some o ->
  op_ok lenof s (MWrite n bs off) ->
  (window n (combine ops rs) = WriteAcc /\ (0 < off + Z.of_nat (length bs) <= max_size s n)%Z ->
     exists s' fd f f', m_step (MWrite n bs off) s = Some (s', MSize (Z.of_nat (length bs))) /\
       fd_of s n = Some fd /\ file_of s n = Some f /\ fd_of s' n = Some fd /\ file_of s' n = Some f' /\
       range (f_data f') off (Z.of_nat (length bs)) = bs /\
       (forall k, (k < off \/ off + Z.of_nat (length bs) <= k)%Z -> f_data f' k = f_data f k) /\
       h_cur (f_hdr f') = (off + Z.of_nat (length bs))%Z /\ h_max (f_hdr f') = h_max (f_hdr f) /\ f_size f' = f_size f /\
       (forall d, d <> fd -> aget d (s_files s') = aget d (s_files s))) /\
  (~ (window n (combine ops rs) = WriteAcc /\ (0 < off + Z.of_nat (length bs) <= max_size s n)%Z) ->
     m_step (MWrite n bs off) s = Some (set_objs s (aset n o (s_objs s)), MSize 0)).
Proof. exact write_step_lemma. Qed.
Print Assumptions c18_write_exactly_in_window_partial.
Example c18_write_exactly_in_window_case :
  max_size ex_state 0 = 5000%Z /\
  ex_results (ex_setup ++ [MWrite 0 (repeat 9%Z 11) 4990; MWrite 0 (repeat 9%Z 10) 4990; MWrite 1 [1%Z] 0])
  = Some [MNone; MBool true; MNone; MBool true; MBool true; MSize 0; MSize 10; MSize 0].
Proof. split; vm_compute; reflexivity. Qed.

(** C18: what one process writes and releases is what another one reads. *)
Theorem c18_written_bytes_are_read_elsewhere_partial : forall lenof ops s rs w r fd bs off,
  run_ok lenof ops sys_init -> m_run ops sys_init = Some (s, rs) ->
  w <> r -> fd_of s w = Some fd -> fd_of s r = Some fd -> header_seen s r ->
  (exists o, aget r (s_objs s) = Some o /\ o_created o = true) ->
  window w (combine ops rs) = WriteAcc -> (0 < off + Z.of_nat (length bs) <= max_size s w)%Z ->
  run_ok lenof [MWrite w bs off; MRelease w true; MGet r false false; MRead r (Z.of_nat (length bs)) off] s ->
  exists s', m_run [MWrite w bs off; MRelease w true; MGet r false false; MRead r (Z.of_nat (length bs)) off] s =
    Some (s', [MSize (Z.of_nat (length bs)); MBool true; MBool true; MBytes (Some bs)]).
Proof. exact round_trip_lemma. Qed.
Print Assumptions c18_written_bytes_are_read_elsewhere_partial.
Example c18_written_bytes_are_read_elsewhere_case :
  fd_of ex_state 0 = fd_of ex_state 1 /\ fd_of ex_state 0 <> None /\
  ex_results (ex_setup ++ [MWrite 0 (repeat 9%Z 3) 4500; MRelease 0 true; MGet 1 false false; MRead 1 3 4500])
  = Some [MNone; MBool true; MNone; MBool true; MBool true; MSize 3; MBool true; MBool true; MBytes (Some (repeat 9%Z 3))].
Proof. vm_compute. repeat split; discriminate. Qed.

(** C18: at most one object holds a file, and its lock is taken exactly while one does.
    Partial: no object may be destroyed while another one holds the file. *)
Theorem c18_exclusive_access_partial : forall lenof ops s rs,
  run_ok lenof ops sys_init -> run_excl ops sys_init -> m_run ops sys_init = Some (s, rs) ->
  (forall n m nm, holds s n nm -> holds s m nm -> n = m) /\
  (forall nm, is_locked nm s = true <-> exists n, holds s n nm).
Proof. exact exclusive_lemma. Qed.
Print Assumptions c18_exclusive_access_partial.
Example c18_exclusive_access_case :
  is_locked 7 ex_state = true /\
  ex_results (ex_setup ++ [MGet 1 false false; MRelease 0 true; MGet 1 false false])
  = Some [MNone; MBool true; MNone; MBool true; MBool true; MBool false; MBool true; MBool true].
Proof. split; vm_compute; reflexivity. Qed.

(** Refuted: destroying any object opens the lock, whoever holds it; a second object then
    gets access. *)
Theorem c18_exclusive_access_refuted : exists lenof ops s rs n m nm,
  run_ok lenof ops sys_init /\ m_run ops sys_init = Some (s, rs) /\ n <> m /\ holds s n nm /\ holds s m nm.
Proof. exact exclusive_counterexample. Qed.
Print Assumptions c18_exclusive_access_refuted.

(** Refuted: a second creator asking for fewer bytes cuts the file under the first one,
    whose next write faults. *)
Theorem c18_creator_with_smaller_size_refuted : exists ops,
  sizes_asked ops = [5000; 100]%Z /\ m_run ops sys_init = None.
Proof. exact smaller_counterexample. Qed.
Print Assumptions c18_creator_with_smaller_size_refuted.

(** Refuted: a creator in a process that already reads the file gets a read only mapping
    and faults on its first write. *)
Theorem c18_creator_after_reader_refuted : exists ops,
  sizes_asked ops = [5000; 5000]%Z /\ m_run ops sys_init = None.
Proof. exact reader_first_counterexample. Qed.
Print Assumptions c18_creator_after_reader_refuted.

(** Refuted: Read adds length and offset in size_t; with a wrapped sum it copies from
    outside of the mapping. *)
Theorem c18_read_bound_overflow_refuted : exists ops s rs len off,
  run_ok (fun _ => 5000%Z) ops sys_init /\ m_run ops sys_init = Some (s, rs) /\ (0 <= len < 2 ^ 64)%Z /\ (0 <= off < 2 ^ 64)%Z /\
  m_step (MRead 1 len off) s = None.
Proof. exact overflow_counterexample. Qed.
Print Assumptions c18_read_bound_overflow_refuted.

(** C20: the reference count of an entry is the number of objects of the process using
    the file; an entry exists exactly while there is one; its mapping is live, is the one
    all of them use, and there are no other mappings. *)
Theorem c20_entries_count_users_partial : forall lenof ops s rs,
  run_ok lenof ops sys_init -> m_run ops sys_init = Some (s, rs) ->
  (forall p nm i, aget (p, nm) (s_db s) = Some i ->
     i_ref i = Z.of_nat (length (users s p nm)) /\ users s p nm <> [] /\
     exists m mp, i_map i = Some m /\ aget m (s_maps s) = Some mp /\ i_size i = mp_len mp) /\
  (forall p nm, aget (p, nm) (s_db s) = None -> users s p nm = []) /\
  (forall m mp, aget m (s_maps s) = Some mp -> exists p nm n o, In (n, o) (users s p nm) /\ i_map (o_info o) = Some m) /\
  (forall p nm n o, In (n, o) (users s p nm) -> exists i, aget (p, nm) (s_db s) = Some i /\ i_map (o_info o) = i_map i).
Proof. exact refcount_lemma. Qed.
Print Assumptions c20_entries_count_users_partial.
Definition ex_three : list mop :=
  ex_setup ++ [MNew 2 1; MCreate 2 7 true 5000 true true false; MNew 3 1; MCreate 3 7 false 0 false true false].
Example c20_entries_count_users_case :
  match m_run ex_three sys_init with
  | Some (s, _) => length (users s 1 7) = 3 /\ length (users s 2 7) = 1 /\ length (s_maps s) = 2
  | None => False
  end.
Proof. vm_compute. repeat split. Qed.

(** C20: when the last user of a process destroys the file with remove, its name and the
    entry are gone. *)
Theorem c20_last_destroy_removes_partial : forall lenof ops s rs n o nm,
  run_ok lenof ops sys_init -> m_run ops sys_init = Some (s, rs) ->
  users s (o_pid o) nm = [(n, o)] ->
  exists s', m_step (MDestroy n true) s = Some (s', MBool true) /\ aget nm (s_names s') = None /\
    aget (o_pid o, nm) (s_db s') = None /\ users s' (o_pid o) nm = [].
Proof. exact unlink_lemma. Qed.
Print Assumptions c20_last_destroy_removes_partial.
Example c20_last_destroy_removes_case :
  match m_run (ex_three ++ [MDestroy 2 true; MDestroy 0 false]) sys_init with
  | Some (s, _) => aget 7 (s_names s) <> None /\
      match m_step (MDestroy 3 false) s with Some (s', _) => aget 7 (s_names s') = None /\ s_maps s' <> [] | None => False end
  | None => False
  end.
Proof. vm_compute. repeat split; discriminate. Qed.

(** Refuted: when a mapping grows for one object, a second object of the same process
    keeps the old address and faults. *)
Theorem c20_stale_address_refuted : exists ops,
  sizes_asked ops = [5000]%Z /\ m_run ops sys_init = None.
Proof. exact stale_counterexample. Qed.
Print Assumptions c20_stale_address_refuted.

(** Refuted: if the mutex cannot be created, the mapping is never given back. *)
Theorem c20_mapping_leak_refuted : exists ops s rs,
  m_run ops sys_init = Some (s, rs) /\ (forall n o, aget n (s_objs s) = Some o -> o_created o = false) /\
  In (MBool false) rs /\ s_maps s <> [] /\
  (forall n o b s' r, aget n (s_objs s) = Some o -> m_step (MDestroy n b) s = Some (s', r) -> s_maps s' = s_maps s).
Proof. exact leak_counterexample. Qed.
Print Assumptions c20_mapping_leak_refuted.
