(** Model of CMemoryFile (ecal/core/src/io/shm/ecal_memfile.cpp and .h), of the process
    wide table of mapped files CMemFileMap (ecal_memfile_db.cpp) and of the system calls
    below them (linux/ecal_memfile_os.cpp), for any number of processes.

    Simplifications: shm_open, ftruncate and mmap do what they are asked to (no lack of
    memory); all processes use the same layout of the internal header (24 bytes, 64 bit
    Linux); file descriptors are identified with the file they refer to; the named mutex
    is a flag per name (its own model is MtxModel.v) and a lock call that waits is
    modelled at the moment it stops waiting.

    [None] is undefined behaviour or a memory fault: access through an address that is
    not mapped, beyond the mapping, beyond the end of the file, a write to a read only
    mapping, or a violated assertion. *)
From Verif Require Import Base.

(** SInternalHeader, ecal_memfile.h lines 187-205; [h_ihs = 0] is zeroed memory. *)
Record ihdr := IHdr { h_ihs : Z; h_cur : Z; h_max : Z }.
Definition ihdr_bytes : Z := 24.
Definition ihdr_default : ihdr := IHdr ihdr_bytes 0 0.
Definition ihdr_zero : ihdr := IHdr 0 0 0.

(** A shared memory object of the operating system: size in bytes, header, and the
    bytes behind the header.  [f_name] is the name it was created with. *)
Record file := File { f_name : nat; f_size : Z; f_hdr : ihdr; f_data : Z -> Z }.

(** SMemFileInfo, ecal_memfile_info.h: [i_fd] is memfile, [i_map] mem_address. *)
Record info := Info { i_ref : Z; i_remove : bool; i_fd : option nat; i_map : option nat; i_size : Z; i_exists : bool }.
Definition info_default : info := Info 0 false None None 0 false.

Record mapping := Mapping { mp_file : nat; mp_len : Z; mp_write : bool }.

Inductive access := Closed | ReadAcc | WriteAcc.

(** CMemoryFile.  [o_mtx] is the name of the mutex the object has opened; [o_mode] is
    the create_ argument of the last Create (not a member, only used in statements). *)
Record obj := Obj {
  o_pid : nat; o_created : bool; o_san : bool; o_pinit : bool; o_acc : access;
  o_name : option nat; o_hdr : ihdr; o_info : info; o_mtx : option nat; o_mode : bool }.
Definition obj_new (pid : nat) : obj := Obj pid false false false Closed None ihdr_default info_default None false.

Record sys := Sys {
  s_files : list (nat * file);            (* all files, also unlinked ones *)
  s_names : list (nat * nat);             (* linked names *)
  s_maps : list (nat * mapping);          (* live mappings *)
  s_locks : list nat;                     (* names of locked mutexes *)
  s_db : list (nat * nat * info);         (* CMemFileMap of every process: (process, name) -> info *)
  s_objs : list (nat * obj);
  s_next : nat }.
Definition sys_init : sys := Sys [] [] [] [] [] [] 0.

Definition set_files s x := Sys x (s_names s) (s_maps s) (s_locks s) (s_db s) (s_objs s) (s_next s).
Definition set_names s x := Sys (s_files s) x (s_maps s) (s_locks s) (s_db s) (s_objs s) (s_next s).
Definition set_maps s x := Sys (s_files s) (s_names s) x (s_locks s) (s_db s) (s_objs s) (s_next s).
Definition set_locks s x := Sys (s_files s) (s_names s) (s_maps s) x (s_db s) (s_objs s) (s_next s).
Definition set_db s x := Sys (s_files s) (s_names s) (s_maps s) (s_locks s) x (s_objs s) (s_next s).
Definition set_objs s x := Sys (s_files s) (s_names s) (s_maps s) (s_locks s) (s_db s) x (s_next s).
Definition bump s := Sys (s_files s) (s_names s) (s_maps s) (s_locks s) (s_db s) (s_objs s) (S (s_next s)).

(** ** Memory access *)

(** The live mapping behind an info and its file. *)
Definition deref (s : sys) (i : info) : option (mapping * file) :=
  match i_map i with
  | None => None
  | Some m => match aget m (s_maps s) with
              | None => None
              | Some mp => match aget (mp_file mp) (s_files s) with
                           | None => None
                           | Some f => Some (mp, f)
                           end
              end
  end.
(** Bytes up to [n] of the file may be accessed. *)
Definition within (mp : mapping) (f : file) (n : Z) : bool := Z.leb n (mp_len mp) && Z.leb n (f_size f).

Definition hdr_read (s : sys) (i : info) : option ihdr :=
  match deref s i with
  | Some (mp, f) => if within mp f ihdr_bytes then Some (f_hdr f) else None
  | None => None
  end.
Definition hdr_write (s : sys) (i : info) (h : ihdr) : option sys :=
  match deref s i with
  | Some (mp, f) =>
      if within mp f ihdr_bytes && mp_write mp
      then Some (set_files s (aset (mp_file mp) (File (f_name f) (f_size f) h (f_data f)) (s_files s)))
      else None
  | None => None
  end.

(** [len] bytes at offset [off] of the data area. *)
Definition range (d : Z -> Z) (off len : Z) : list Z := map (fun k => d (off + Z.of_nat k)%Z) (seq 0 (Z.to_nat len)).
Definition overwrite (d : Z -> Z) (off : Z) (bs : list Z) : Z -> Z :=
  fun i => if Z.leb off i && Z.ltb i (off + Z.of_nat (length bs)) then nth (Z.to_nat (i - off)) bs 0%Z else d i.

(** Access through mem_address + int_hdr_size. *)
Definition data_read (s : sys) (i : info) (h : ihdr) (off len : Z) : option (list Z) :=
  match deref s i with
  | Some (mp, f) =>
      if within mp f (h_ihs h + off + len) && Z.eqb (h_ihs h) ihdr_bytes then Some (range (f_data f) off len) else None
  | None => None
  end.
Definition data_write (s : sys) (i : info) (h : ihdr) (off : Z) (bs : list Z) : option sys :=
  match deref s i with
  | Some (mp, f) =>
      if within mp f (h_ihs h + off + Z.of_nat (length bs)) && Z.eqb (h_ihs h) ihdr_bytes && mp_write mp
      then Some (set_files s (aset (mp_file mp) (File (f_name f) (f_size f) (f_hdr f) (overwrite (f_data f) off bs)) (s_files s)))
      else None
  | None => None
  end.

(** ** linux/ecal_memfile_os.cpp *)
Definition page : Z := 4096.

(** ftruncate: a shorter file loses its tail, a longer one is filled with zeros. *)
Definition truncate (n : Z) (f : file) : file :=
  File (f_name f) n (f_hdr f) (fun i => if Z.ltb (ihdr_bytes + i) (Z.min n (f_size f)) then f_data f i else 0%Z).

(** AllocFile, lines 43-81. *)
Definition os_alloc (name : nat) (create : bool) (s : sys) (i : info) : option (sys * info) :=
  match aget name (s_names s) with
  | Some fd => Some (s, Info (i_ref i) (i_remove i) (Some fd) (i_map i) 0 true)
  | None =>
      if create
      then let fd := s_next s in
           Some (bump (set_names (set_files s (aset fd (File name 0 ihdr_zero (fun _ => 0%Z)) (s_files s))) (aset name fd (s_names s))),
                 Info (i_ref i) (i_remove i) (Some fd) (i_map i) 0 (i_exists i))
      else None
  end.

(** MapFile, lines 103-131: called with a null address only. *)
Definition os_map (create : bool) (fd : nat) (size : Z) (s : sys) : sys * nat :=
  let s1 := if create
            then match aget fd (s_files s) with
                 | Some f => set_files s (aset fd (truncate size f) (s_files s))
                 | None => s
                 end
            else s in
  (bump (set_maps s1 (aset (s_next s1) (Mapping fd size create) (s_maps s1))), s_next s1).

(** UnMapFile, lines 133-143. *)
Definition os_unmap (s : sys) (m : nat) : option sys :=
  match aget m (s_maps s) with Some _ => Some (set_maps s (adel m (s_maps s))) | None => None end.

(** CheckFileSize, lines 145-186. *)
Definition os_check_size (len0 : Z) (create : bool) (s : sys) (i : info) : option (sys * info) :=
  match i_fd i with
  | None => Some (s, i)
  | Some fd =>
      let len := Z.max len0 page in
      match i_map i with
      | None =>
          let '(s1, m) := os_map create fd len s in
          Some (s1, Info (i_ref i) (i_remove i) (i_fd i) (Some m) len (i_exists i))
      | Some m =>
          if Z.ltb (i_size i) len
          then match os_unmap s m with
               | None => None
               | Some s1 =>
                   let '(s2, m2) := os_map create fd len s1 in
                   let s3 := if create
                             then match aget fd (s_files s2) with
                                  | Some f => set_files s2 (aset fd (File (f_name f) (f_size f) ihdr_zero (fun _ => 0%Z)) (s_files s2))
                                  | None => s2
                                  end
                             else s2 in
                   Some (s3, Info (i_ref i) (i_remove i) (i_fd i) (Some m2) len (i_exists i))
               end
          else Some (s, i)
      end
  end.

(** ** ecal_memfile_db.cpp *)

(** AddFile, lines 63-108: Some None is the return value false. *)
Definition db_add (pid name : nat) (create : bool) (len : Z) (s : sys) : option (option (sys * info)) :=
  match aget (pid, name) (s_db s) with
  | None =>
      match os_alloc name create s info_default with
      | None => Some None
      | Some (s1, i1) =>
          match os_check_size len create s1 i1 with
          | None => None
          | Some (s2, i2) =>
              let i3 := Info (i_ref i2 + 1) (i_remove i2) (i_fd i2) (i_map i2) (i_size i2) (i_exists i2) in
              Some (Some (set_db s2 (aset (pid, name) i3 (s_db s2)), i3))
          end
      end
  | Some i =>
      match os_check_size len false s (Info (i_ref i + 1) (i_remove i) (i_fd i) (i_map i) (i_size i) true) with
      | None => None
      | Some (s2, i2) => Some (Some (set_db s2 (aset (pid, name) i2 (s_db s2)), i2))
      end
  end.

(** RemoveFile, lines 110-147. *)
Definition db_remove (pid name : nat) (remove : bool) (s : sys) : option (sys * bool) :=
  match aget (pid, name) (s_db s) with
  | None => Some (s, false)
  | Some i =>
      let i1 := Info (i_ref i - 1) (i_remove i || remove) (i_fd i) (i_map i) (i_size i) (i_exists i) in
      if Z.ltb (i_ref i1) 1
      then
        let unm := match i_map i1 with None => Some s | Some m => os_unmap s m end in
        match unm with
        | None => None
        | Some s1 =>
            let s2 := if i_remove i1 then set_names s1 (adel name (s_names s1)) else s1 in
            Some (set_db s2 (adel (pid, name) (s_db s2)), true)
        end
      else Some (set_db s (aset (pid, name) i1 (s_db s)), true)
  end.

(** CheckFileSize, lines 149-161. *)
Definition db_check_size (pid name : nat) (len : Z) (s : sys) (i : info) : option (sys * info) :=
  match os_check_size len false s i with
  | None => None
  | Some (s1, i1) => Some (set_db s1 (aset (pid, name) i1 (s_db s1)), i1)
  end.

(** ** The named mutex, as a flag *)
Definition is_locked (n : nat) (s : sys) : bool := existsb (Nat.eqb n) (s_locks s).
Definition lock (n : nat) (s : sys) : sys := set_locks s (n :: s_locks s).
Definition unlock (n : nat) (s : sys) : sys := set_locks s (filter (fun x => negb (Nat.eqb x n)) (s_locks s)).
(** The destructor of the mutex object unlocks, whoever locked it
    (linux/ecal_named_mutex_impl.cpp lines 235-249). *)
Definition mtx_destroy (o : obj) (s : sys) : sys :=
  match o_mtx o with Some n => unlock n s | None => s end.

(** ** ecal_memfile.cpp *)

(** Destroy, lines 160-188. *)
Definition mf_destroy (remove : bool) (s : sys) (o : obj) : option (sys * obj * bool) :=
  if negb (o_created o) then Some (s, o, false)
  else match o_name o with
       | None => None
       | Some n =>
           match db_remove (o_pid o) n remove s with
           | None => None
           | Some (s1, r) => Some (mtx_destroy o s1, Obj (o_pid o) false (o_san o) false Closed None ihdr_default info_default None (o_mode o), r)
           end
       end.

(** The header handling at the end of Create, lines 113-151, with the mutex locked. *)
Definition mf_create_header (create : bool) (name : nat) (len : Z) (recovered : bool) (s : sys) (o : obj)
  : option (sys * obj) :=
  if create then
    let h := IHdr (h_ihs (o_hdr o)) (h_cur (o_hdr o)) len in
    if is_locked name s
    then Some (s, Obj (o_pid o) (o_created o) (o_san o) (o_pinit o) (o_acc o) (o_name o) h (o_info o) (o_mtx o) (o_mode o))
    else
      match hdr_read s (o_info o) with
      | None => None
      | Some fh =>
          if negb (i_exists (o_info o)) || Z.eqb (h_ihs fh) 0 || (o_san o && recovered)
          then match hdr_write s (o_info o) h with
               | None => None
               | Some s1 => Some (s1, Obj (o_pid o) (o_created o) (o_san o) (o_pinit o) (o_acc o) (o_name o) h (o_info o) (o_mtx o) (o_mode o))
               end
          else Some (s, Obj (o_pid o) (o_created o) (o_san o) (o_pinit o) (o_acc o) (o_name o) fh (o_info o) (o_mtx o) (o_mode o))
      end
  else
    if is_locked name s then Some (s, o)
    else
      match hdr_read s (o_info o) with
      | None => None
      | Some fh =>
          match db_check_size (o_pid o) name (h_ihs fh) s (o_info o) with
          | None => None
          | Some (s1, i1) =>
              match hdr_read s1 i1 with
              | None => None
              | Some fh1 =>
                  Some (s1, Obj (o_pid o) (o_created o) (o_san o) (o_pinit o) (o_acc o) (o_name o)
                              (if Z.eqb (h_ihs fh) 0 then o_hdr o else fh1) i1 (o_mtx o) (o_mode o))
              end
          end
      end.

(** Create, lines 57-158.  [mtx_ok]: the mutex could be created or opened. *)
Definition mf_create (name : nat) (create : bool) (len : Z) (san mtx_ok recovered : bool) (s : sys) (o : obj)
  : option (sys * obj * bool) :=
  if negb ((create && Z.ltb 0 len) || (negb create && Z.eqb len 0)) || (san && negb create) then None
  else
    let o := Obj (o_pid o) (o_created o) san (o_pinit o) (o_acc o) (o_name o) (o_hdr o) (o_info o) (o_mtx o) create in
    let attached :=
      if negb (eqb (o_name o) (Some name)) || (create && Z.ltb 0 len && negb (Z.eqb (h_max (o_hdr o)) len))
      then
        match mf_destroy create s o with
        | None => None
        | Some (s1, o1, _) =>
            let o2 := Obj (o_pid o1) false (o_san o1) false Closed None ihdr_default info_default (o_mtx o1) (o_mode o1) in
            match db_add (o_pid o) name create (if create then len + ihdr_bytes else 2)%Z s1 with
            | None => None
            | Some None => Some (s1, o2, false)
            | Some (Some (s2, i)) =>
                Some (s2, Obj (o_pid o2) false (o_san o2) false Closed None ihdr_default i (o_mtx o2) (o_mode o2), true)
            end
        end
      else Some (s, o, true) in
    match attached with
    | None => None
    | Some (s1, o1, false) => Some (s1, o1, false)
    | Some (s1, o1, true) =>
        let s2 := mtx_destroy o1 s1 in
        let o2 := Obj (o_pid o1) (o_created o1) (o_san o1) (o_pinit o1) (o_acc o1) (o_name o1) (o_hdr o1) (o_info o1)
                      (if mtx_ok then Some name else None) (o_mode o1) in
        if negb mtx_ok then Some (s2, o2, false)
        else match mf_create_header create name len recovered s2 o2 with
             | None => None
             | Some (s3, o3) =>
                 Some (s3, Obj (o_pid o3) true (o_san o3) (o_pinit o3) (o_acc o3) (Some name) (o_hdr o3) (o_info o3) (o_mtx o3) (o_mode o3), true)
             end
    end.

(** GetAccess, lines 357-398. *)
Definition mf_access (recovered : bool) (s : sys) (o : obj) : option (sys * obj * bool) :=
  if negb (o_created o) then Some (s, o, false)
  else match i_map (o_info o), o_mtx o, o_name o with
       | None, _, _ => Some (s, o, false)
       | _, None, _ => Some (s, o, false)
       | _, _, None => None
       | Some _, Some n, Some nm =>
           if is_locked n s then Some (s, o, false)
           else
             let s1 := lock n s in
             let sanitized :=
               if o_san o && recovered
               then let h := IHdr (h_ihs (o_hdr o)) 0 (h_max (o_hdr o)) in
                    match hdr_write s1 (o_info o) h with Some s' => Some (s', h) | None => None end
               else Some (s1, o_hdr o) in
             match sanitized with
             | None => None
             | Some (s2, h) =>
                 match hdr_read s2 (o_info o) with
                 | None => None
                 | Some fh =>
                     let h := if Z.eqb (h_ihs h) 0 then h else fh in
                     let len := (h_ihs h + h_max h)%Z in
                     let checked := if Z.ltb (i_size (o_info o)) len
                                    then db_check_size (o_pid o) nm len s2 (o_info o)
                                    else Some (s2, o_info o) in
                     match checked with
                     | None => None
                     | Some (s3, i) =>
                         let o1 := Obj (o_pid o) (o_created o) (o_san o) (o_pinit o) (o_acc o) (o_name o) h i (o_mtx o) (o_mode o) in
                         if Z.ltb (i_size i) len then Some (unlock n s3, o1, false) else Some (s3, o1, true)
                     end
                 end
             end
       end.

Definition set_acc (o : obj) (a : access) : obj :=
  Obj (o_pid o) (o_created o) (o_san o) (o_pinit o) a (o_name o) (o_hdr o) (o_info o) (o_mtx o) (o_mode o).

(** GetReadAccess 190-202, GetWriteAccess 251-263. *)
Definition mf_get (a : access) (recovered : bool) (s : sys) (o : obj) : option (sys * obj * bool) :=
  match mf_access recovered s o with
  | None => None
  | Some (s1, o1, true) => Some (s1, set_acc o1 a, true)
  | Some (s1, o1, false) => Some (s1, o1, false)
  end.

Definition acc_eqb (a b : access) : bool :=
  match a, b with Closed, Closed | ReadAcc, ReadAcc | WriteAcc, WriteAcc => true | _, _ => false end.

(** ReleaseReadAccess 204-216, ReleaseWriteAccess 265-277. *)
Definition mf_release (a : access) (s : sys) (o : obj) : sys * obj * bool :=
  if negb (o_created o) then (s, o, false)
  else if negb (acc_eqb (o_acc o) a) then (s, o, false)
  else (mtx_destroy o s, set_acc o Closed, true).   (* Unlock: the same effect on the flag *)

(** size_t addition. *)
Definition add64 (a b : Z) : Z := Z.modulo (a + b) (2 ^ 64)%Z.

(** GetReadAddress 218-230 and Read 232-249; the result is the bytes copied. *)
Definition mf_read (len off : Z) (s : sys) (o : obj) : option (option (list Z)) :=
  if negb (o_created o) then Some None
  else if negb (acc_eqb (o_acc o) ReadAcc) then Some None
  else if Z.eqb (add64 len off) 0 then Some None
  else if Z.ltb (h_cur (o_hdr o)) (add64 len off) then Some None
  else match data_read s (o_info o) (o_hdr o) off len with
       | Some bs => Some (Some bs)
       | None => None
       end.

(** GetWriteAddress, lines 279-296: result of a successful call is the updated state. *)
Definition mf_write_address (len : Z) (s : sys) (o : obj) : option (option (sys * obj)) :=
  if negb (o_created o) then Some None
  else if negb (acc_eqb (o_acc o) WriteAcc) then Some None
  else if Z.eqb len 0 then Some None
  else if Z.ltb (h_max (o_hdr o)) len then Some None
  else
    let h := IHdr (h_ihs (o_hdr o)) len (h_max (o_hdr o)) in
    match hdr_read s (o_info o) with
    | None => None
    | Some fh =>
        match hdr_write s (o_info o) (IHdr (h_ihs fh) len (h_max fh)) with
        | None => None
        | Some s1 => Some (Some (s1, Obj (o_pid o) (o_created o) (o_san o) (o_pinit o) (o_acc o) (o_name o) h (o_info o) (o_mtx o) (o_mode o)))
        end
    end.

(** WriteBuffer, lines 298-316: number of bytes written. *)
Definition mf_write (bs : list Z) (off : Z) (s : sys) (o : obj) : option (sys * obj * Z) :=
  let len := Z.of_nat (length bs) in
  match mf_write_address (add64 len off) s o with
  | None => None
  | Some None => Some (s, o, 0%Z)
  | Some (Some (s1, o1)) =>
      match data_write s1 (o_info o1) (o_hdr o1) off bs with
      | Some s2 => Some (s2, o1, len)
      | None => None
      end
  end.

(** What a payload writer (CPayloadWriter, ecal/core/include/ecal/ecal_payload_writer.h)
    does to the memory it is given: new content and success, for WriteFull and
    WriteModified. *)
Record pwriter := PWriter { pw_full : list Z -> list Z * bool; pw_mod : list Z -> list Z * bool }.

(** WritePayload, lines 318-355. *)
Definition mf_write_payload (pw : pwriter) (len off : Z) (force : bool) (s : sys) (o : obj) : option (sys * obj * Z) :=
  match mf_write_address (add64 len off) s o with
  | None => None
  | Some None => Some (s, o, 0%Z)
  | Some (Some (s1, o1)) =>
      match data_read s1 (o_info o1) (o_hdr o1) off len with
      | None => None
      | Some old =>
          let full := negb (o_pinit o1) || force in
          let '(new, ok) := (if full then pw_full pw else pw_mod pw) old in
          match data_write s1 (o_info o1) (o_hdr o1) off new with
          | None => None
          | Some s2 =>
              Some (s2, Obj (o_pid o1) (o_created o1) (o_san o1) (o_pinit o1 || (full && ok)) (o_acc o1) (o_name o1) (o_hdr o1) (o_info o1) (o_mtx o1) (o_mode o1), len)
          end
      end
  end.

(** ** Histories *)
Inductive mop :=
| MNew (o pid : nat)                        (* constructor, line 45; object numbers are not reused *)
| MCreate (o name : nat) (create : bool) (len : Z) (san mtx_ok recovered : bool)
| MDestroy (o : nat) (remove : bool)
| MGet (o : nat) (write recovered : bool)
| MRelease (o : nat) (write : bool)
| MRead (o : nat) (len off : Z)
| MWrite (o : nat) (bs : list Z) (off : Z)
| MPayload (o : nat) (pw : pwriter) (len off : Z) (force : bool).
Inductive mres := MNone | MBool (b : bool) | MSize (n : Z) | MBytes (bs : option (list Z)).

Definition acc_of (write : bool) : access := if write then WriteAcc else ReadAcc.
Definition put (n : nat) (r : option (sys * obj * bool)) : option (sys * mres) :=
  match r with Some (s, o, b) => Some (set_objs s (aset n o (s_objs s)), MBool b) | None => None end.
Definition putz (n : nat) (r : option (sys * obj * Z)) : option (sys * mres) :=
  match r with Some (s, o, b) => Some (set_objs s (aset n o (s_objs s)), MSize b) | None => None end.

Definition mop_obj (op : mop) : nat :=
  match op with
  | MNew n _ | MCreate n _ _ _ _ _ _ | MDestroy n _ | MGet n _ _ | MRelease n _ | MRead n _ _ | MWrite n _ _ | MPayload n _ _ _ _ => n
  end.
Definition m_step (op : mop) (s : sys) : option (sys * mres) :=
  match op with
  | MNew n pid =>
      match aget n (s_objs s) with
      | Some _ => Some (s, MNone)
      | None => Some (set_objs s (aset n (obj_new pid) (s_objs s)), MNone)
      end
  | _ =>
    match aget (mop_obj op) (s_objs s) with
    | None => Some (s, MNone)
    | Some o =>
        match op with
        | MCreate n name create len san mtx_ok rec => put n (mf_create name create len san mtx_ok rec s o)
        | MDestroy n remove => put n (mf_destroy remove s o)
        | MGet n w rec => put n (mf_get (acc_of w) rec s o)
        | MRelease n w => put n (Some (mf_release (acc_of w) s o))
        | MRead n len off => match mf_read len off s o with Some bs => Some (s, MBytes bs) | None => None end
        | MWrite n bs off => putz n (mf_write bs off s o)
        | MPayload n pw len off force => putz n (mf_write_payload pw len off force s o)
        | MNew _ _ => None
        end
    end
  end.
Fixpoint m_run (ops : list mop) (s : sys) : option (sys * list mres) :=
  match ops with
  | [] => Some (s, [])
  | op :: ops' =>
      match m_step op s with
      | None => None
      | Some (s1, r) => match m_run ops' s1 with Some (s2, rs) => Some (s2, r :: rs) | None => None end
      end
  end.
