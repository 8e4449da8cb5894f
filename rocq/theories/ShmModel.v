(** A publisher and its subscribers over shared memory: the ring of memory files of the
    publisher (ecal/core/src/readwrite/shm/ecal_writer_shm.cpp), the synchronised memory
    file (ecal/core/src/io/shm/ecal_memfile_sync.cpp) and the observers of the
    subscribers (ecal/core/src/io/shm/ecal_memfile_pool.cpp).

    One publisher, any number of subscriber processes, all interleavings of the steps
    below.  Simplifications: the lock of a memory file and its events are the ones of
    MtxModel and EvtModel under their rules (at most one holder, an event is a flag);
    bytes of a file are split into header and payload area, reads and writes of them are
    the ones of MemModel; every observer is on a valid file; time is counted in
    milliseconds. *)
From Verif Require Import Base.

(** sizeof(SMemFileHeader), ecal_memfile_header.h 29-47. *)
Definition hdr_bytes : Z := 64.

(** SMemFileHeader. *)
Record hdr := Hdr { h_size : Z; h_id : Z; h_clock : Z; h_time : Z; h_hash : Z; h_zero : bool; h_ack : Z }.
Definition hdr0 : hdr := Hdr 0 0 0 0 0 false 0.

(** A message: what the user sends (len = length of the payload). *)
Record msg := Msg { m_id : Z; m_clock : Z; m_time : Z; m_hash : Z; m_zero : bool; m_ack : Z; m_pay : list Z }.
Definition m_len (m : msg) : Z := Z.of_nat (length (m_pay m)).
(** ecal_memfile_sync.cpp 155-172. *)
Definition hdr_of (m : msg) : hdr := Hdr (m_len m) (m_id m) (m_clock m) (m_time m) (m_hash m) (m_zero m) (m_ack m).

Inductive who := Pub | Sub (pid : nat).
Record file := File {
  f_cap : Z;                   (* MaxDataSize *)
  f_lock : option who;         (* the mutex of the file *)
  f_hdr : hdr; f_cur : Z;      (* header and CurDataSize *)
  f_pay : list Z;              (* the payload area *)
  f_init : bool;               (* m_payload_initialized of the publisher's memory file object *)
  f_conn : list (nat * bool)   (* m_event_handle_map: process id, event_ack_is_invalid *)
}.
Definition set_lock (l : option who) (f : file) : file := File (f_cap f) l (f_hdr f) (f_cur f) (f_pay f) (f_init f) (f_conn f).
Definition set_conn (c : list (nat * bool)) (f : file) : file := File (f_cap f) (f_lock f) (f_hdr f) (f_cur f) (f_pay f) (f_init f) c.

(** What the publisher is doing. *)
Inductive wphase :=
| WIdle
| WPrepared (m : msg)          (* PrepareWrite is done *)
| WLocked (m : msg)            (* write access *)
| WHeaderDone (m : msg)        (* header written *)
| WPayloadDone (m : msg) (full good written : bool)
| WSyncing (m : msg) (eat set wait : list nat) (start : Z)  (* SyncContent: what is left to do *)
| WFailed.                     (* Write is about to return false *)

(** What an observer thread is doing. *)
Inductive ophase :=
| OIdle
| OLocked                      (* read access *)
| OHeader (h : hdr)            (* read access, header read, clock is new *)
| OInside (h : hdr) (bs : list Z)  (* zero copy: in the callback, with read access *)
| OSkipped (h : hdr)           (* zero copy: no callback, with read access *)
| OCopied (h : hdr) (bs : list Z)  (* payload copied, with read access *)
| OProcess (h : hdr) (bs : list Z) (* buffered: access released, before the callback *)
| ODone (h : hdr).             (* callback done, acknowledge to be sent *)
Record obs := Obs { o_last : Z; o_unproc : bool; o_ph : ophase; o_buf : list Z }.
Definition obs0 : obs := Obs 0 false OIdle [].

Record shm := Shm {
  s_ring : list (option nat);  (* m_memory_file_vec: the file of each slot, None: creation failed *)
  s_idx : nat;                 (* m_write_idx *)
  s_files : list (nat * file);
  s_next : nat;                (* next unused file name *)
  s_min : Z;                   (* m_attr.min_size *)
  s_w : wphase;
  s_obs : list ((nat * nat) * obs);   (* observers by process and file *)
  s_snd : list ((nat * nat) * bool);  (* the events of a process and a file *)
  s_ack : list ((nat * nat) * bool);
  s_now : Z
}.

(** What happens, in order. *)
Inductive event :=
| EvConnect (nm pid : nat)
| EvRecreate (slot : nat) (old new : nat)
| EvBegin (nm : nat)                       (* the publisher has got write access *)
| EvWritten (nm : nat) (h : hdr) (pay : list Z) (full good : bool)
| EvSync (nm : nat) (start : Z) (waited : list nat)
| EvAte (nm pid : nat)
| EvAcked (nm pid : nat)                   (* the publisher has received an acknowledgement *)
| EvTimedOut (nm pid : nat) (t : Z)
| EvReturn (ok : bool)
| EvStart (pid nm : nat)                   (* an observer starts *)
| EvRead (pid nm : nat) (h : hdr)
| EvDeliver (pid nm : nat) (h : hdr) (bs : list Z)
| EvAck (pid nm : nat) (clock : Z)         (* acknowledgement sent *)
| EvDone (pid nm : nat).                   (* an observer has finished a message *)

Inductive sop :=
| SPrepare (m : msg) (extra : Z) (ok : bool)
| SLock
| SLockTimeout (ok : bool)
| SHeader
| SPayload (junk : option (list Z))
| SRelease
| SEat (pid : nat) | SSet (pid : nat) | SAcked (pid : nat) | SAckTimeout (pid : nat) | SSkip (pid : nat)
| SReturn
| SConnect (slot pid : nat)
| SStart (pid nm : nat)
| SWait (pid nm : nat) | SAccess (pid nm : nat) | SReadHdr (pid nm : nat) | SReadPay (pid nm : nat)
| SReadEnd (pid nm : nat) | SCall (pid nm : nat) | SAcknowledge (pid nm : nat)
| SStop (pid nm : nat)
| STick (d : Z).

Definition slot_name (s : shm) : option nat := match nth_error (s_ring s) (s_idx s) with Some (Some nm) => Some nm | _ => None end.
Definition get_file (s : shm) (nm : nat) : option file := aget nm (s_files s).
Definition get_obs (s : shm) (pid nm : nat) : option obs := aget (pid, nm) (s_obs s).
Definition flag (l : list ((nat * nat) * bool)) (pid nm : nat) : bool := match aget (pid, nm) l with Some b => b | None => false end.

Definition upd_file (s : shm) (nm : nat) (f : file) : shm :=
  Shm (s_ring s) (s_idx s) (aset nm f (s_files s)) (s_next s) (s_min s) (s_w s) (s_obs s) (s_snd s) (s_ack s) (s_now s).
Definition upd_w (s : shm) (w : wphase) : shm :=
  Shm (s_ring s) (s_idx s) (s_files s) (s_next s) (s_min s) w (s_obs s) (s_snd s) (s_ack s) (s_now s).
Definition upd_obs (s : shm) (pid nm : nat) (o : obs) : shm :=
  Shm (s_ring s) (s_idx s) (s_files s) (s_next s) (s_min s) (s_w s) (aset (pid, nm) o (s_obs s)) (s_snd s) (s_ack s) (s_now s).
Definition upd_snd (s : shm) (pid nm : nat) (b : bool) : shm :=
  Shm (s_ring s) (s_idx s) (s_files s) (s_next s) (s_min s) (s_w s) (s_obs s) (aset (pid, nm) b (s_snd s)) (s_ack s) (s_now s).
Definition upd_ack (s : shm) (pid nm : nat) (b : bool) : shm :=
  Shm (s_ring s) (s_idx s) (s_files s) (s_next s) (s_min s) (s_w s) (s_obs s) (s_snd s) (aset (pid, nm) b (s_ack s)) (s_now s).

Fixpoint set_nth {A} (i : nat) (x : A) (l : list A) : list A :=
  match l, i with
  | [], _ => []
  | _ :: l', 0 => x :: l'
  | y :: l', S i' => y :: set_nth i' x l'
  end.

(** CSyncMemoryFile::Create 240-275: a new file with a fresh name, an empty header. *)
Definition new_file (min size : Z) (conn : list (nat * bool)) : file :=
  File (Z.max (hdr_bytes + size) min) None hdr0 hdr_bytes [] false conn.

(** CSyncMemoryFile::Recreate 305-330 (with Destroy 277-303 and DisconnectAll 396-422) of
    the current slot.  Destroying the old file closes its mutex, which releases it (see
    MtxModel); acknowledge events of the old file are set.  All processes are connected to
    the new file again.  [ok]: whether the new file could be created. *)
Definition recreate (s : shm) (nm : nat) (f : file) (size : Z) (ok : bool) : shm * list event :=
  let new := s_next s in
  let files := aset nm (set_conn [] (set_lock None f)) (s_files s) in
  let files' := if ok then aset new (new_file (s_min s) size (map (fun c => (fst c, false)) (f_conn f))) files else files in
  (Shm (set_nth (s_idx s) (if ok then Some new else None) (s_ring s)) (s_idx s) files' (S new) (s_min s) (s_w s) (s_obs s) (s_snd s)
     (fold_left (fun a c => aset (fst c, nm) true a) (f_conn f) (s_ack s)) (s_now s),
   if ok then EvRecreate (s_idx s) nm new :: map (fun c => EvConnect new (fst c)) (f_conn f) else []).

(** std::vector::resize. *)
Definition resize (n : Z) (l : list Z) : list Z :=
  firstn (Z.to_nat n) l ++ repeat 0%Z (Z.to_nat n - length l).
Definition prefix (n : Z) (l : list Z) : list Z := firstn (Z.to_nat n) l.

(** CDataWriterSHM::Write 80-88: the index moves on, whether or not the write succeeded. *)
Definition finish (s : shm) (ok : bool) : shm * list event :=
  (Shm (s_ring s) (Nat.modulo (S (s_idx s)) (length (s_ring s))) (s_files s) (s_next s) (s_min s) WIdle (s_obs s) (s_snd s) (s_ack s) (s_now s),
   [EvReturn ok]).

(** A step that is not possible leaves everything as it is.  [None]: modulo by zero. *)
Definition sh_step (op : sop) (s : shm) : option (shm * list event) :=
  let stay := Some (s, []) in
  match op with
  (* -- publisher -- *)
  | SPrepare m extra ok =>
      (* CDataWriterSHM::PrepareWrite 62-75, CSyncMemoryFile::CheckSize 115-137; [extra]
         is the configured reserve in bytes *)
      match s_w s with
      | WIdle =>
          match length (s_ring s) with
          | 0 => None
          | S _ as n =>
              let s1 := Shm (s_ring s) (Nat.modulo (s_idx s) n) (s_files s) (s_next s) (s_min s) (WPrepared m)
                          (s_obs s) (s_snd s) (s_ack s) (s_now s) in
              match slot_name s1 with
              | None => Some (s1, [])
              | Some nm =>
                  match get_file s1 nm with
                  | None => stay
                  | Some f =>
                      if (f_cap f <? hdr_bytes + m_len m)%Z
                      then Some (recreate s1 nm f (hdr_bytes + m_len m + Z.max 0 extra) ok)
                      else Some (s1, [])
                  end
              end
          end
      | _ => stay
      end
  | SLock =>
      (* CSyncMemoryFile::Write 139-147, 176-177 *)
      match s_w s with
      | WPrepared m =>
          match slot_name s with
          | None => Some (upd_w s WFailed, [])
          | Some nm =>
              match get_file s nm with
              | Some f => match f_lock f with
                          | None => Some (upd_w (upd_file s nm (set_lock (Some Pub) f)) (WLocked m), [EvBegin nm])
                          | Some _ => stay
                          end
              | None => stay
              end
          end
      | _ => stay
      end
  | SLockTimeout ok =>
      (* CSyncMemoryFile::Write 179-198: somebody else keeps the lock *)
      match s_w s with
      | WPrepared m =>
          match slot_name s with
          | None => stay
          | Some nm =>
              match get_file s nm with
              | Some f =>
                  match f_lock f with
                  | None => stay
                  | Some _ =>
                      let (s1, ev) := recreate s nm f (f_cap f) ok in
                      if ok
                      then match slot_name s1 with
                           | Some nm' =>
                               match get_file s1 nm' with
                               | Some f' => Some (upd_w (upd_file s1 nm' (set_lock (Some Pub) f')) (WLocked m), ev ++ [EvBegin nm'])
                               | None => stay
                               end
                           | None => stay
                           end
                      else Some (upd_w s1 WFailed, ev)
                  end
              | None => stay
              end
          end
      | _ => stay
      end
  | SHeader =>
      (* 204-206; CMemoryFile::WriteBuffer also sets the data size *)
      match s_w s, slot_name s with
      | WLocked m, Some nm =>
          match get_file s nm with
          | Some f => Some (upd_w (upd_file s nm (File (f_cap f) (f_lock f) (hdr_of m) hdr_bytes (f_pay f) (f_init f) (f_conn f))) (WHeaderDone m), [])
          | None => stay
          end
      | _, _ => stay
      end
  | SPayload junk =>
      (* 208-211; CMemoryFile::WritePayload (ecal_memfile.cpp 318-355): the result of the payload
         writer is ignored.  [junk]: what a failing payload writer leaves in memory.  A
         partial write (not [full], only the changed bytes) is assumed to complete the
         payload; n > 1 forces a full write (CDataWriterSHM::Write 80) *)
      match s_w s, slot_name s with
      | WHeaderDone m, Some nm =>
          match get_file s nm with
          | Some f =>
              if Nat.eqb (length (m_pay m)) 0 then Some (upd_w s (WPayloadDone m true true true), [])
              else if (f_cap f <? hdr_bytes + m_len m)%Z then Some (upd_w s (WPayloadDone m true true false), [])
              else
                let bs := match junk with Some j => resize (m_len m) j | None => m_pay m end in
                Some (upd_w (upd_file s nm
                        (File (f_cap f) (f_lock f) (f_hdr f) (hdr_bytes + m_len m)
                           (bs ++ skipn (length bs) (f_pay f)) (f_init f || match junk with Some _ => false | None => true end) (f_conn f)))
                        (WPayloadDone m (negb (f_init f) || negb (Nat.eqb (length (s_ring s)) 1)) (match junk with Some _ => false | None => true end) true), [])
          | None => stay
          end
      | _, _ => stay
      end
  | SRelease =>
      (* 213-216, SyncContent 332-366 *)
      match s_w s, slot_name s with
      | WPayloadDone m full good written, Some nm =>
          match get_file s nm with
          | Some f =>
              let s1 := upd_file s nm (set_lock None f) in
              if written
              then
                let pids := map fst (f_conn f) in
                let waited := map fst (filter (fun c => negb (snd c)) (f_conn f)) in
                let acks := negb (Z.leb (m_ack m) 0) in
                Some (upd_w s1 (WSyncing m (if acks then pids else []) pids (if acks then pids else []) (s_now s)),
                      [EvWritten nm (hdr_of m) (m_pay m) full good] ++ (if acks then [EvSync nm (s_now s) waited] else []))
              else Some (upd_w s1 WFailed, [])
          | None => stay
          end
      | _, _ => stay
      end
  | SEat pid =>
      (* 343-350 *)
      match s_w s, slot_name s with
      | WSyncing m (p :: eat) set wait t, Some nm =>
          if Nat.eqb p pid then Some (upd_w (upd_ack s pid nm false) (WSyncing m eat set wait t), [EvAte nm pid]) else stay
      | _, _ => stay
      end
  | SSet pid =>
      (* 352-357; the time is taken after the last one, 363 *)
      match s_w s, slot_name s with
      | WSyncing m [] (p :: set) wait t, Some nm =>
          if Nat.eqb p pid then Some (upd_w (upd_snd s pid nm true) (WSyncing m [] set wait (s_now s)), []) else stay
      | _, _ => stay
      end
  | SAcked pid =>
      (* 365-391: the wait succeeds *)
      match s_w s, slot_name s with
      | WSyncing m [] [] (p :: wait) t, Some nm =>
          match get_file s nm with
          | Some f =>
              if Nat.eqb p pid && negb (existsb (fun c => Nat.eqb (fst c) p && snd c) (f_conn f)) && flag (s_ack s) pid nm
              then Some (upd_w (upd_ack s pid nm false) (WSyncing m [] [] wait t), [EvAcked nm pid]) else stay
          | None => stay
          end
      | _, _ => stay
      end
  | SAckTimeout pid =>
      (* 383-391: the wait fails *)
      match s_w s, slot_name s with
      | WSyncing m [] [] (p :: wait) t, Some nm =>
          match get_file s nm with
          | Some f =>
              if Nat.eqb p pid && negb (existsb (fun c => Nat.eqb (fst c) p && snd c) (f_conn f)) && (t + m_ack m <=? s_now s)%Z
              then Some (upd_w (upd_file s nm (set_conn (map (fun c => if Nat.eqb (fst c) p then (fst c, true) else c) (f_conn f)) f))
                           (WSyncing m [] [] wait t), [EvTimedOut nm pid (s_now s)]) else stay
          | None => stay
          end
      | _, _ => stay
      end
  | SSkip pid =>
      (* 372-378 *)
      match s_w s, slot_name s with
      | WSyncing m [] [] (p :: wait) t, Some nm =>
          match get_file s nm with
          | Some f =>
              if Nat.eqb p pid && existsb (fun c => Nat.eqb (fst c) p && snd c) (f_conn f)
              then Some (upd_w s (WSyncing m [] [] wait t), []) else stay
          | None => stay
          end
      | _, _ => stay
      end
  | SReturn =>
      match s_w s with
      | WSyncing m [] [] [] t => Some (finish s true)
      | WFailed => Some (finish s false)
      | _ => stay
      end
  | SConnect slot pid =>
      (* CDataWriterSHM::ApplySubscription 90-103, CSyncMemoryFile::Connect 51-91; excluded
         by m_event_handle_map_sync while the file is in SyncContent *)
      match nth_error (s_ring s) slot with
      | Some (Some nm) =>
          match s_w s with
          | WSyncing _ _ _ _ _ => if Nat.eqb slot (s_idx s) then stay else
              match get_file s nm with
              | Some f => Some (upd_file s nm (set_conn (aset pid false (f_conn f)) f), [EvConnect nm pid])
              | None => stay
              end
          | _ =>
              match get_file s nm with
              | Some f => Some (upd_file s nm (set_conn (aset pid false (f_conn f)) f), [EvConnect nm pid])
              | None => stay
              end
          end
      | _ => stay
      end
  (* -- observers, CMemFileObserver -- *)
  | SStart pid nm =>
      (* CMemFileThreadPool::ObserveFile 368-409, Start 99-119; a new thread starts with clock 0 *)
      match get_file s nm, get_obs s pid nm with
      | Some _, None => Some (upd_obs s pid nm obs0, [EvStart pid nm])
      | _, _ => stay
      end
  | SWait pid nm =>
      (* 166-178 *)
      match get_obs s pid nm with
      | Some (Obs last false OIdle buf) =>
          if flag (s_snd s) pid nm then Some (upd_obs (upd_snd s pid nm false) pid nm (Obs last true OIdle buf), []) else stay
      | _ => stay
      end
  | SAccess pid nm =>
      (* 180-191 *)
      match get_obs s pid nm, get_file s nm with
      | Some (Obs last true OIdle buf), Some f =>
          match f_lock f with
          | None => Some (upd_obs (upd_file s nm (set_lock (Some (Sub pid)) f)) pid nm (Obs last false OLocked buf), [])
          | Some _ => stay
          end
      | _, _ => stay
      end
  | SReadHdr pid nm =>
      (* 193-202, ReadFileHeader 296-318 *)
      match get_obs s pid nm, get_file s nm with
      | Some (Obs last u OLocked buf), Some f =>
          if (h_clock (f_hdr f) <=? last)%Z
          then Some (upd_obs (upd_file s nm (set_lock None f)) pid nm (Obs last u OIdle buf), [])
          else Some (upd_obs s pid nm (Obs last u (OHeader (f_hdr f)) buf), [EvRead pid nm (f_hdr f)])
      | _, _ => stay
      end
  | SReadPay pid nm =>
      (* zero copy 214-239, buffered 246-262 *)
      match get_obs s pid nm, get_file s nm with
      | Some (Obs last u (OHeader h) buf), Some f =>
          if h_zero h then
            if Z.eqb (h_size h) 0 then Some (upd_obs s pid nm (Obs last u (OInside h []) buf), [EvDeliver pid nm h []])
            else if (h_size h <=? f_cur f)%Z
            then Some (upd_obs s pid nm (Obs last u (OInside h (prefix (h_size h) (f_pay f))) buf), [EvDeliver pid nm h (prefix (h_size h) (f_pay f))])
            else Some (upd_obs s pid nm (Obs last u (OSkipped h) buf), [])
          else
            let bs := if Z.eqb (h_size h) 0 then [] else
                      if (hdr_bytes + h_size h <=? f_cur f)%Z then prefix (h_size h) (f_pay f) else resize (h_size h) buf in
            Some (upd_obs s pid nm (Obs last u (OCopied h bs) bs), [])
      | _, _ => stay
      end
  | SReadEnd pid nm =>
      (* 264-268 *)
      match get_obs s pid nm, get_file s nm with
      | Some (Obs last u ph buf), Some f =>
          match ph with
          | OInside h _ | OSkipped h => Some (upd_obs (upd_file s nm (set_lock None f)) pid nm (Obs (h_clock h) u (ODone h) buf), [])
          | OCopied h bs => Some (upd_obs (upd_file s nm (set_lock None f)) pid nm (Obs (h_clock h) u (OProcess h bs) buf), [])
          | _ => stay
          end
      | _, _ => stay
      end
  | SCall pid nm =>
      (* 270-275 *)
      match get_obs s pid nm with
      | Some (Obs last u (OProcess h bs) buf) => Some (upd_obs s pid nm (Obs last u (ODone h) buf), [EvDeliver pid nm h bs])
      | _ => stay
      end
  | SAcknowledge pid nm =>
      (* 277-281 *)
      match get_obs s pid nm with
      | Some (Obs last u (ODone h) buf) =>
          if Z.eqb (h_ack h) 0
          then Some (upd_obs s pid nm (Obs last u OIdle buf), [EvDone pid nm])
          else Some (upd_obs (upd_ack s pid nm true) pid nm (Obs last u OIdle buf), [EvAck pid nm (h_clock h); EvDone pid nm])
      | _ => stay
      end
  | SStop pid nm =>
      (* the loop ends (timeout or stop), 163-164 and 293 *)
      match get_obs s pid nm with
      | Some (Obs _ _ OIdle _) =>
          Some (Shm (s_ring s) (s_idx s) (s_files s) (s_next s) (s_min s) (s_w s) (adel (pid, nm) (s_obs s)) (s_snd s) (s_ack s) (s_now s), [])
      | _ => stay
      end
  | STick d => Some (Shm (s_ring s) (s_idx s) (s_files s) (s_next s) (s_min s) (s_w s) (s_obs s) (s_snd s) (s_ack s) (s_now s + Z.max 0 d), [])
  end.

Fixpoint sh_run (ops : list sop) (s : shm) : option (shm * list event) :=
  match ops with
  | [] => Some (s, [])
  | op :: ops' =>
      match sh_step op s with
      | None => None
      | Some (s1, ev) => match sh_run ops' s1 with Some (s2, ev2) => Some (s2, ev ++ ev2) | None => None end
      end
  end.

(** CDataWriterSHM::CDataWriterSHM 36-45 and SetBufferCount 114-162: [n] files, none if one of them
    could not be created. *)
Definition sh_init (n : nat) (min : Z) (ok : bool) : shm :=
  let files := map (fun i => (i, new_file min min [])) (seq 0 n) in
  if ok then Shm (map Some (seq 0 n)) 0 files n min WIdle [] [] [] 0
  else Shm [] 0 [] 0 min WIdle [] [] [] 0.
