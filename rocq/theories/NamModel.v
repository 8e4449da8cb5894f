(** Model of the names of the objects in shared memory, under Linux: memory files, the mutexes
    that guard them and the events.  They all live in one name space (/dev/shm).
    io/shm/ecal_memfile_naming.cpp, io/shm/ecal_memfile_sync.cpp (names, connections),
    io/shm/linux/ecal_memfile_os.cpp (AllocFile), io/mtx/linux/ecal_named_mutex_impl.cpp and
    ecal_named_mutex_robust_clocklock_impl.cpp (named_mutex_buildname), ecal_event.cpp (CNamedEvent),
    readwrite/shm/ecal_reader_shm.cpp, io/shm/ecal_memfile_pool.cpp (names of the events),
    registration/shm/ecal_memfile_broadcast.h (names of the payload files).

    Left out: what is in the objects (MemModel, MtxModel, EvtModel), who removes them and when
    (an object may vanish at any time here), permissions and exhausted resources other than the
    answers given to SMake and SRemake. *)
From Verif Require Import Base Sample StrModel.
From Verif Require MonModel McModel.

(** ** Building the names *)

(** operator<< of an unsigned number under std::hex: lower case, no leading zeros. *)
Definition hex_digit (d : Z) : Z := (if d <? 10 then 48 + d else 87 + d)%Z.
Fixpoint hex_digits (fuel : nat) (z : Z) (acc : text) : text :=
  match fuel with
  | O => acc
  | S f => let acc := hex_digit (z mod 16)%Z :: acc in if (z / 16 =? 0)%Z then acc else hex_digits f (z / 16)%Z acc
  end.
(** BuildRandomMemFileName, ecal_memfile_naming.cpp 33-42; [r] is what dist(rd) returned, a uint32_t. *)
Definition random_name (base : text) (r : Z) : text := base ++ hex_digits 8 r [].
(** ecal_writer_shm.cpp 34: the base name of the files of all publishers. *)
Definition topic_base : text := str "ecal_".
(** std::to_string(uint64_t). *)
Definition long_number (z : Z) : text := McModel.decimal 20 z [].
(** BuildPayloadMemfileName, ecal_memfile_broadcast.h 51-54. *)
Definition payload_name (domain : text) (id : Z) : text := domain ++ str "_" ++ long_number id.
(** The first character of a std::string; of the empty one it is the terminating zero. *)
Definition first_char (s : text) : Z := match s with [] => 0%Z | c :: _ => c end.
(** AllocFile, ecal_memfile_os.cpp 47. *)
Definition alloc_name (n : text) : text := match n with [] => [] | _ => if (first_char n =? 47)%Z then n else 47%Z :: n end.
(** named_mutex_buildname, ecal_named_mutex_impl.cpp 200-209 and robust_clocklock 178-187. *)
Definition mutex_name (n : text) : text := (if (first_char n =? 47)%Z then [] else [47%Z]) ++ n ++ str "_mtx".
(** CNamedEvent, ecal_event.cpp 323-328. *)
Definition event_name (n : text) : text := let m := n ++ str "_evt" in if (first_char m =? 47)%Z then m else 47%Z :: m.

(** The writer: CSyncMemoryFile::Connect, ecal_memfile_sync.cpp 60-61; the process id arrives as
    std::to_string of the registered one (ecal_writer_shm.cpp 97). *)
Definition writer_snd (file : text) (process : text) : text := file ++ str "_" ++ process.
Definition writer_ack (file : text) (process : text) : text := file ++ str "_" ++ process ++ str "_ack".
(** The reader: CSHMReaderLayer::SetConnectionParameter, ecal_reader_shm.cpp 48-49 and
    CMemFileObserver::Create, ecal_memfile_pool.cpp 62-63. *)
Definition reader_event (file : text) (pid : Z) : text := file ++ str "_" ++ MonModel.int_text pid.
Definition observer_snd (event : text) : text := event.
Definition observer_ack (event : text) : text := event ++ str "_ack".
(** ecal.cpp 42 (the process itself) and ecal_util.cpp 225 (ShutdownProcess). *)
Definition shutdown_event (pid : Z) : text := str "ecal_shutdown_process" ++ str "_" ++ MonModel.int_text pid.

(** ** The objects *)

(** A memory file of a publisher, of the registration (the broadcast file of a domain), or of one
    registering process (its payload file). *)
Inductive nfile := TopicFile (r : Z) | DomainFile (domain : text) | PayloadFile (domain : text) (id : Z).
Inductive nobject :=
| TheFile (f : nfile)
| TheGuard (f : nfile)            (* the mutex of a memory file, ecal_memfile.cpp Create *)
| TheSnd (r pid : Z)              (* the two events of a publisher's file and a subscribing process *)
| TheAck (r pid : Z)
| TheShutdown (pid : Z).          (* the event that asks a process to end *)
Definition file_name (f : nfile) : text :=
  match f with
  | TopicFile r => random_name topic_base r
  | DomainFile d => d
  | PayloadFile d id => payload_name d id
  end.
(** The name given to shm_open. *)
Definition open_name (o : nobject) : text :=
  match o with
  | TheFile f => alloc_name (file_name f)
  | TheGuard f => mutex_name (file_name f)
  | TheSnd r p => event_name (observer_snd (reader_event (random_name topic_base r) p))
  | TheAck r p => event_name (observer_ack (reader_event (random_name topic_base r) p))
  | TheShutdown p => event_name (shutdown_event p)
  end.

(** ** The name space *)

(** shm_open of the C library: leading slashes do not count, the rest must not be empty, must not
    contain a further slash and must be shorter than NAME_MAX (255). *)
Fixpoint unslash (s : text) : text := match s with c :: s' => if (c =? 47)%Z then unslash s' else s | [] => [] end.
Definition shm_key (s : text) : option text :=
  let k := unslash s in
  if match k with [] => true | _ => false end || existsb (Z.eqb 47) k || negb (length k <? 255)%nat then None else Some k.

(** The name space remembers for each name as what it was made. *)
Definition space := list (text * nobject).
Inductive nact := NOpen (o : nobject) | NUnlink (o : nobject).
Inductive nanswer := NInvalid | NMade | NFound (o : nobject) | NGone.
(** Files and mutexes and events are opened if they are there, and made otherwise: AllocFile 48-60
    (O_EXCL first, then a plain open), CNamedEvent 329-333 (the other way round). *)
Definition n_step (a : nact) (s : space) : space * nanswer :=
  match a with
  | NOpen o => match shm_key (open_name o) with
               | None => (s, NInvalid)
               | Some k => match aget k s with Some x => (s, NFound x) | None => (aset k o s, NMade) end
               end
  | NUnlink o => match shm_key (open_name o) with None => (s, NInvalid) | Some k => (adel k s, NGone) end
  end.
Fixpoint n_run (l : list nact) (s : space) : space * list nanswer :=
  match l with
  | [] => (s, [])
  | a :: l' => let (s', x) := n_step a s in let (s'', xs) := n_run l' s' in (s'', x :: xs)
  end.

(** ** One memory file of a publisher and its connections: CSyncMemoryFile *)

(** m_created, m_base_name, m_memfile_name, m_event_handle_map with the names the two events of
    each process were opened by. *)
Record sfile := SFile { sf_made : bool; sf_base : text; sf_name : text; sf_conn : list (text * (text * text)) }.
Inductive sact :=
| SConnect (process : text)
| SDisconnect (process : text)
| SRemake (r : Z) (ok : bool)     (* CheckSize finds the file too small: the number drawn, whether CMemoryFile::Create succeeds *)
| SEnd.                           (* Destroy *)
(** Create 240-275. *)
Definition sf_create (base : text) (r : Z) (ok : bool) (s : sfile) : sfile :=
  if sf_made s then s else SFile ok base (random_name base r) (sf_conn s).
(** The constructor 39-44. *)
Definition sf_new (base : text) (r : Z) (ok : bool) : sfile := sf_create base r ok (SFile false [] [] []).
(** Connect 51-91: an existing entry keeps its events (they stay valid until they are closed). *)
Definition sf_connect (p : text) (s : sfile) : sfile :=
  if sf_made s then
    if amem p (sf_conn s) then s
    else SFile true (sf_base s) (sf_name s) (aset p (writer_snd (sf_name s) p, writer_ack (sf_name s) p) (sf_conn s))
  else s.
(** Disconnect 93-113. *)
Definition sf_disconnect (p : text) (s : sfile) : sfile :=
  if sf_made s then SFile true (sf_base s) (sf_name s) (adel p (sf_conn s)) else s.
(** Destroy 277-303 with DisconnectAll 396-422. *)
Definition sf_destroy (s : sfile) : sfile := if sf_made s then SFile false (sf_base s) [] [] else s.
(** Recreate 305-330. *)
Definition sf_recreate (r : Z) (ok : bool) (s : sfile) : sfile :=
  let ids := keys (sf_conn s) in
  let s1 := sf_destroy s in
  let s2 := sf_create (sf_base s1) r ok s1 in
  if sf_made s2 then fold_left (fun s p => sf_connect p s) ids s2 else s2.
(** CheckSize 115-137 of a file that is too small. *)
Definition sf_check (r : Z) (ok : bool) (s : sfile) : sfile := if sf_made s then sf_recreate r ok s else s.
Definition sf_step (a : sact) (s : sfile) : sfile :=
  match a with
  | SConnect p => sf_connect p s
  | SDisconnect p => sf_disconnect p s
  | SRemake r ok => sf_check r ok s
  | SEnd => sf_destroy s
  end.
Definition sf_run (l : list sact) (s : sfile) : sfile := fold_left (fun s a => sf_step a s) l s.
