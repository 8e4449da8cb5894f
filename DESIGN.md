# Formal model of eCAL core in Rocq

This directory holds a machine-checked model of parts of eCAL core and proofs of
the properties listed in `properties.jsonl`.  The source tree in `/repo` was read
as text; nothing of it was compiled or run.

## Layout

`rocq/theories/` is organised by area.  Every area `X` has up to four files:

* `XModel.v`  - executable definitions only, each citing the file and lines it models;
* `XSpec.v`   - the small independent vocabulary used to state the properties
  (only where the property needs more than the standard library's);
* `XProofs.v` - lemmas;
* `XProps.v`  - the property theorems, each closed by `exact lemma.`, followed by
  `Print Assumptions`, with an `Example` showing that its hypotheses can be met.

Naming: theorem names start with the property id in lower case (`c07_...`).
`..._partial` marks a theorem that covers only part of its property;
`..._refuted` is a proof that the full property is false of the code as it is
(the witness is a finding and is listed under "Findings").

The log of edits to the model, `seeded/LOG.jsonl`, gives for each edit the theorems that no longer
proved. Most edits were tried against the theorems as they were at the time; an area that did not exist
yet is not in the list, and some edits were only compiled with their own area. Four theorems were
restated after edits against them had been logged (`c48_round_trip_exactly`, `c67_relative_exactly`,
`c95_answers`, `c101_null_order`, formerly `c48_round_trip_partial`, `c67_relative_partial`,
`c95_answers_partial`, `c101_null_refuted`); the 24 edits they are listed for were tried again with the
new statements in the files of these theorems, the other theorems listed there are those of the first
run.

## Conventions of the model

* C++ objects become records; methods become total functions returning the new
  record and the result.  Threads become interleavings of atomic steps; the
  granularity of a step is what the code protects with a mutex, and is stated in
  the comment of each model.
* Undefined behaviour and uncaught exceptions are explicit outcomes.
* Numbers are unbounded unless a property depends on truncation; where the code
  narrows (`static_cast<uint32_t>`, `int32_t`, `uint16_t`) the wrap is written out.
* Time is an input of each operation (the clock is read once per operation where
  the code reads it once).
* The operating system, sockets, and user callbacks are inputs (oracles) of a step.

## Plan per property

| id | what is modelled | shape of the proof |
|----|------------------|--------------------|
| C01 | the expiring map as a key/value store plus a recency list | refinement to a map key -> (value, last touch), every history |
| C02 | the same map with its `insert(pair)` | refutation by witness; the true weaker statement |
| C03 | the relocatable queue on an array with indices | refinement to a bounded list |
| C04 | queue + header time stamp + per-receiver last time stamp | history invariant; refutation for equal time stamps |
| C05 | broadcast reader batch processing | refutation; strongest true statement |
| C06 | acceptance function and consumer table | decision rule + history |
| C07-C11 | the subscriber object as a state machine | invariants over arrival histories |
| C12-C16 | the publisher object as a state machine | invariants; a two-thread interleaving for C16 |
| C17 | the buffer ring | invariant over send histories |
| C18, C19 | memory file with byte content and access state | invariants; refutation for C19 |
| C20 | in-process table of mapped files | invariant; refutation |
| C21 | named lock word with owners | invariant over interleavings; refutation for close |
| C22 | named event word | refinement to a binary semaphore |
| C23 | acknowledge loop with a shared time budget | induction over readers and sends |
| C24 | observer loop | induction over wake-ups |
| C25, C26 | frame encoder and incremental frame reader | round trip for every segmentation; refutation at 2^32 |
| C27 | legacy read loop | refutation; the true statement for unsegmented requests |
| C28 | negotiation | decision rule |
| C29 | client session state machine | history invariant (multiset of calls = callbacks + pending) |
| C30 | result table of a blocking call | induction over completion orders |
| C31, C32 | server request dispatch; event tables of server and client | history invariant; refutation |
| C33 | client's session and connected tables | alternation invariant; refutation |
| C59 | server's sessions, connection flags and event handling per session | invariant over interleavings; refutations |
| C34 | hash and address arithmetic on 32-bit words, dotted text | bitwise proof, text round trip |
| C35 | datagram framing | round trip; robustness; refutation |
| C36, C37 | layer tables | refinement to a multiset count; refutation |
| C38 | TCP frame | round trip + alignment |
| C39-C41, C57 | protobuf wire format as produced and consumed by nanopb callbacks | round trip |
| C58 | the same decoder on a grammar of messages with unknown fields | decoder correctness by induction on the grammar |
| C42, C43 | topic -> object multimaps | history invariant; refutation for the returned size |
| C44, C45 | description database | refinement; refutation |
| C46 | monitoring keys and filters | decision rule; refutations |
| C47 | log sinks | decision rule + history |
| C48-C50 | string and path helpers | round trip / characterisation |
| C51 | registration provider queue | history invariant |
| C52 | broadcast queue with writers and readers of different sizes | refutation; positive for equal sizes |
| C53 | user registration callbacks | decision rule over histories |
| C54 | registrations over shared memory, end to end | history invariant |
| C55 | hash of a message | arithmetic on words, refutation |
| C56 | unnamed event | counting invariant |
| C60 | type information in the description gate and the API above it | refinement to "best information seen"; refutations |
| C61, C62 | log file lines; filter lists of the configuration | characterisation of the file content; round trip, refutation |
| C63-C65 | string helpers, quoting, environment variables | characterisation by decomposition of the input; refutations |
| C66-C68 | path queries, relative paths, MkPath on a table of directories | characterisation; refutations |
| C69-C71 | components, Initialize/Finalize counters, process state | invariants over histories of API calls; refutations |
| C72-C74 | callback thread, timer, frequency calculator | invariants over interleavings; arithmetic |
| C75-C78 | managers of sessions, their threads, acceptor, nested calls | invariants over interleavings; deadlock witnesses |
| C79 | gate to the time plugins | invariant over histories; refutations |
| C80-C85 | configuration structures, YAML trees, merging, constrained values | round trip, frame conditions; refutations |
| C86, C87 | search for the configuration file; combined type names | decision rule; exact conditions |
| C88-C91 | C interface: memory blocks of the caller, results, callback lock | characterisation of the memory after the call; interleavings |
| C92-C95 | typed publishers, subscribers, dynamic subscribers, protobuf servers | histories with messages arriving inside constructors and destructors |
| C96 | a message from send to callback | composition of C13-C15, C24, C35, C38, C39, C07-C10 |
| C97 | a service call from client to method and back | composition of C25, C28, C29, C31, C40; progress |
| C98-C101 | protobuf message filters, decoder with visitors, descriptor sets, dynamic decoder | characterisation of contents; trees of any depth; graph invariants; refutations |
| C102 | discovery between processes over a network that loses, repeats and reorders datagrams | composition of C01-C06, C12, C35, C39, C42; history invariant; refutations |
| C103 | API objects created, moved and destroyed while eCAL is initialized and finalized | invariant over the composition with C69's life cycle; refutations |
| C104 | starting programs: the fork, FIFO and lock protocol; a process's own command line | invariants over all schedules, a decreasing measure, refutations |
| C105 | sleeping in simulation time | invariants over all histories of setters and a sleeping thread, arithmetic bound, refutations |
| C106 | what a process says of itself: id, names, parameters, state, registration samples | invariants over all histories and interleavings, round trips, refutations |
| C107 | names of memory files, mutexes and events in the one name space of a host | injectivity of the names, refinement of opening to a table of objects, invariant of a file's connections, refutations |
| C108 | exceptions of dynamic subscribers | refinement of the decoder; invariants over histories; oracles for the libraries |
| C109 | formats and publishers with a message | serializers against `honest` of C94; list induction for reused objects and readers; refinement of a world of topics, messages and a log of writes |
| C110 | timers and threads | invariant per timer over all interleavings for programs with one user per timer; ranking for completion; invariant of the guard for all programs; a closed set of stuck states |
| C111 | C getters of types, log and time | the listings of C59 and the order of C60 give the best description and its uniqueness; lemmas about copying of C80; counterexample runs |
| C112 | locks of publishing and subscribing | rank of locks for each set of rules, checked on the lock trees of all calls and jobs; maximal wanted lock of a blocked state; exclusive locks and nesting as invariants; standing still is for ever |
| C113 | locks of services together with publishing and subscribing | as C112, with nested callbacks (induction over nested behaviours), waiting for answers as a rank below the four threads; pigeonhole for method callbacks; hangs by computed runs and standing still for ever |
| C114 | discovery of services between processes | invariants over all runs by induction (provenance of every table entry, times through the abstract map of C01's area), refinement of the expiring table, serialization round trip; keys by splitting at the last separator; exceptions by computed runs |
| C115 | asking processes to shut down | simulation of whole calls by a four-state automaton; case analysis of every step and induction over all interleavings (well-formedness, who holds which file, counting of set events); projection to one event by injectivity of the names; permutation for whom the calls address |
| C116 | what a monitor sees of other processes | invariant over all runs by induction (every datagram told the truth when it was sent), the history of each monitoring cut out of the run and handed to the exact listings of C46, the round trip of C35 on the way |
| C117 | publishing and subscribing as a whole | invariants by induction over runs of the composed system (discovery C102, writer C13-C15, packets C96, gates and readers), refined step by step onto the models of its parts |
| C118 | observers of memory files | every step seen by one observer as an inductive relation; induction over runs with steady times |
| C119 | data shared between threads | programs as trees of accesses and lock scopes; lockset invariant over all interleavings; classification of all variables by computation |
| C120 | services as a whole | composition of C97 and C111 with any number of connections per server; every connection simulates one run of C97; invariants over the world; one step of one connection lifted to a step of all; the way to an answer constructed step by step, with induction over the waiting calls |
| C121 | directories below the home directory | exact characterisation of path walks; case analysis over the two makings |
| C122 | legacy connection as a whole | invariants over both byte streams and the session of the server; the way to all answers constructed by induction over the waiting calls; the shifted answers by induction over the later calls |

## Trusted base

* Coq 8.16.1's kernel, its standard library, and `coqchk` for the independent re-check.
* The fidelity of the model to the C++ source, which was established by reading only.
* The meaning of the C++ library and of the operating system calls as written in the
  models (section "Modelled and not modelled").

### Assumptions

No axioms are declared.  `Print Assumptions` follows every theorem of the `*Props.v`
files and prints "Closed under the global context" for each of them: no axiom of the
standard library is used either (no functional extensionality, no classical logic, no
real numbers).  `coqchk` lists three module parameters of the standard library's
`Coq.ssr.ssrunder` (`Under_rel`, `under_rel`, and their relation); they come with
loading the library and no theorem depends on them.

## Modelled and not modelled

| source | model | left out or simplified |
|--------|-------|------------------------|
| `util/ecal_expmap.h` | ExpMap | iteration order of the map |
| `registration/shm/relocatable_circular_queue.h`, `ecal_memfile_broadcast.cpp` | Broadcast | 64-bit index overflow |
| `registration/ecal_registration_sample_applier*.cpp`, `ecal_registration_provider.cpp` | Reg | - |
| `registration/shm/ecal_memfile_broadcast_{reader,writer}.cpp`, `ecal_registration_{sender,receiver}_shm.cpp` | ShmReg | queue used through its specification (C04) |
| `readwrite/ecal_reader.cpp` | Rd, Conn | registration texts |
| `readwrite/ecal_writer.cpp`, `pubsub/ecal_publisher.cpp` | Wr, Conn | std::hash of an integer is the identity; hash of the topic id given |
| `readwrite/shm/ecal_writer_shm.cpp`, `io/shm/ecal_memfile_sync.cpp`, `ecal_memfile_pool.cpp` | Shm | one publisher; lock and event by the rules of Mtx and Evt |
| `io/shm/ecal_memfile.cpp`, `ecal_memfile_db.cpp`, `linux/ecal_memfile_os.cpp` | Mem | no lack of memory |
| `io/mtx/linux/*.cpp` | Mtx | failing system calls |
| `ecal_event.cpp` (Linux) | Evt | failing system calls, which waiter wakes |
| `io/udp/ecal_udp_topic2mcast.h`, `ecal_udp_configurations.cpp` (addresses) | Mc | - |
| `io/udp/ecal_udp_sample_{sender,receiver_asio}.cpp`, `readwrite/udp/*.cpp` | Udp | ecaludp delivers unchanged or not at all |
| `readwrite/tcp/*.cpp` | Tcp | tcp_pubsub delivers unchanged or not at all; little endian |
| `ecal/service/ecal_service/src/protocol_v*.cpp`, negotiation | Frm | - |
| `client_session_impl_v1.cpp` (and v0) | Cli | handlers of a strand are single steps |
| `ecal_service_client_impl.cpp` | Blk, Csv, Cli | attributes of services |
| `ecal_service_server_impl.cpp`, `server_impl.cpp`, `server_session_impl_v*.cpp` | Srv, Sev | Start and Stop of the server implementation |
| `client_manager.cpp`, `server_manager.cpp`, `ecal_service_singleton_manager.cpp` | Man | critical sections are single steps |
| `serialization/*.cpp`, nanopb `pb_encode.c`, `pb_decode.c` | Pb, Ser | encoder computes its bytes once; field types eCAL does not use |
| `pubsub/ecal_{pub,sub}gate.cpp` | Gate | - |
| `ecal_descgate.cpp`, `ecal_util.cpp` (listings) | Dsc | one clock value per call |
| `monitoring/ecal_monitoring_impl.cpp` | Mon | std::regex is an oracle; iteration order |
| `logging/ecal_log_impl.cpp` | Log | writing to an open file succeeds |
| `lib/ecal_utils` string, command line, path functions | Str, Path | C locale; no symbolic links or permissions |
| `ecal.cpp`, `ecal_globals.cpp`, `ecal_global_accessors.cpp` | Life | one thread; all ECAL_CORE options on |
| `pubsub/ecal_publisher.cpp`, `ecal_subscriber.cpp`, `service/ecal_service_server.cpp`, `ecal_service_client.cpp` and the four gates: Create, Destroy, moves, Start, Stop | Api | one thread; of an implementation only whether it runs and has a name |
| `ecal_process.cpp` 627-704, 921-986, 988-1547: GetProcessParameter, StartProcess on Linux, getTerminalEmulatorCommand; `ecal_process_stub.cpp` | Spn | reads and writes of four bytes are whole; the terminal emulator executes the stub or never does |
| `ecal_process.cpp` 95-109, 231-300, 614-621, 711-985 (Linux), `ecal_global_accessors.cpp`, `registration/ecal_process_registration.cpp` | Prc | the operating system is a record of answers; calls follow one another except for the id as text; the time gate is what it answers |
| `io/shm/ecal_memfile_naming.cpp`, names in `ecal_memfile_sync.cpp`, `ecal_memfile_pool.cpp`, `ecal_event.cpp`, `linux/ecal_memfile_os.cpp`, `io/mtx/linux/*`, `registration/shm/ecal_memfile_broadcast.h` | Nam | `shm_open` as in the C library; contents of the objects and who removes them are left out; process ids are not negative |
| `contrib/ecaltime/include/dynamic_sleeper.h` | Slp | rates are fractions instead of doubles; no overflow of 64 bit integers |
| `util/ecal_thread.h`, `time/ecal_timer.cpp`, `util/frequency_calculator.h` | Thr | times are integers, frequencies exact fractions |
| `time/ecal_timer.cpp` again, `cimpl/ecal_timer_cimpl.cpp` | Tmr | one step per access to an atomic, thread or mutex; sleeping takes any time; atomics are sequentially consistent |
| `time/ecal_timegate.cpp`, `time/ecal_time.cpp` | Tg | a plugin is a fixed table of symbols and answers |
| `config/*.cpp`, `types/ecal_custom_data_types.*` | Cfg, Find | yaml-cpp: text and tree inverse to each other, scalar conversion as a record of functions |
| `cimpl/*.cpp` | Cap | pointers to the first cell of a block; malloc answers from outside |
| `cimpl/ecal_util_cimpl.cpp` 60-206, `ecal_log_cimpl.cpp` 47-55, `ecal_time_cimpl.cpp` 73-91 | Cut | on top of Dsc, Log and Cap; the status of the time is an oracle |
| lock scopes of `pubsub/ecal_subgate.cpp`, `ecal_pubgate.cpp`, `ecal_subscriber.cpp`, `ecal_publisher.cpp`, `readwrite/ecal_reader.cpp`, `ecal_writer.cpp`, `registration/ecal_registration_provider.cpp`, `ecal_registration_sample_applier.cpp`, `util/ecal_thread.h`, `io/shm/ecal_memfile_pool.cpp`, `ecal_memfile_sync.cpp`, `logging/ecal_log_impl.cpp` | Lck | only which locks are taken, in which order, and where callbacks are called; longest paths; no services, clients, timers |
| lock scopes of `service/ecal_service_client_impl.cpp`, `ecal_service_server_impl.cpp`, `ecal_clientgate.cpp`, `ecal_servicegate.cpp`, `ecal_service_singleton_manager.cpp`, `ecal_service/src/client_session_impl_v1.cpp`, `server_session_impl_v1.cpp`, `server_impl.cpp`, `client_manager.cpp`, `server_manager.cpp` | Svl | as Lck; strands and the four threads are locks; answers come; mutexes of the service library merged into three |
| discovery of services: `service/ecal_service_server_impl.cpp` 304-398, `ecal_servicegate.cpp`, `ecal_clientgate.cpp` 66-170, `ecal_service_client_impl.cpp` 69-131, 395-439, 711-780, with registration provider and receiver | Sds | operations of one process atomic; only service registrations; sessions opened and failed by the environment; client events left to C33 |
| shutting down: `ecal_util.cpp` 185-296, `ecal.cpp` 37-49, 208-212, on the named events of `ecal_event.cpp` (Evt) | Sht | one thread of a process calls Ok; the list of processes is an argument (from the monitoring, Mon); that GetMonitoring initialises eCAL and never finalises it is left out; failing system calls as in Evt |
| `registration/ecal_process_registration.cpp`, the registration samples of writers, readers, servers and clients, `monitoring/ecal_monitoring_impl.cpp` of other processes | Eye | operations of one process follow one another; what an entity tells about itself is changed by the environment; the filters stay as configured; registrations over UDP |
| `pubsub/ecal_publisher.cpp`, `pubsub/ecal_subgate.cpp`, `readwrite/ecal_writer.cpp`, `readwrite/ecal_reader.cpp`, composed with `registration/*` | Wld | an operation runs to its end before the next; packets may arrive at any process (which multicast groups, TCP sessions and memory files are listened to is in Udp, Tcp, Shm); the layer parameters in registrations of publishers are free |
| `io/shm/ecal_memfile_pool.cpp` (pool and timeouts), `readwrite/shm/ecal_reader_shm.cpp` | Pol | the thread is modelled by the steps of its loop, of the content only the counter; Stop of the pool is one step; creating an observer succeeds |
| readers, writers, gates, clients, servers, registration, description gate, monitoring, logging: which members they touch under which locks | Rac | no values: conditions are choices; one entity of each kind; removal from a gate is a lock; constructors are no accesses |
| clients, sessions, servers and connections of all processes together (`ecal_service_client_impl.cpp`, `ecal_service_server_impl.cpp`, `server_impl.cpp`, composed of Sds, Rpc, Cli and Srv) | Wsv | one operation after another; the system gives a server only ports that no running server of the host has; host names lead to the hosts of that name; legacy sessions are not driven, their requests come from outside; a destroyed server closes its connections at once |
| `ecal_config_initializer.cpp` (home, settings and log path), `filesystem.cpp` (FileStatus, MkDir) | Hom | Linux; no symbolic links; everything may be searched; others do not change the file system meanwhile |
| `client_session_impl_v0.cpp` (calls), `server_session_impl_v0.cpp` (reading), `protocol_v0.cpp` | Leg | connected from the start; a write is in the stream when it is started; of a lost connection only the client's side; uses the parts of Frm |
| `include/ecal/msg/*` | Msg | serializers and decoders arbitrary; moved-from std::function empty |
| `ecal/msg/protobuf`: message filter, decoder, dimensions visitor, `ecal_proto_hlp.h`, `ecal_proto_dyn.cpp`, `dynamic_subscriber.h`, `dynamic_json_subscriber.h`; `capnproto/dynamic.h` and `helper.h` (reading) | Flt, Vis, Fds, Dyn, Djs | protobuf's reflection and descriptors as tables; acceptance depends on names only; what the libraries make of bytes is an oracle |
| `msg/flatbuffers/*.h`, `msg/messagepack/*.h`, `msg/capnproto/publisher.h`, `msg/capnproto/subscriber.h`, `msg/protobuf/dynamic_publisher.h` | Fmt* | messages are bytes, packing and parsing are oracles; a Cap'n Proto root that was replaced reads as default values; protobuf messages are never removed (nobody can tell); the state of the builder after an exception is not modelled |
| the above together: registration thread, UDP registration, gates, tables of connections | E2e, Rpc, Net | operations of one process do not overlap; the network hands over datagrams whole |

Not modelled at all: Windows-specific code, the rest of `ecal_process.cpp` (DumpConfig,
stopping of processes), `ecal_cmd_parser.cpp` (TCLAP), the npcap receiver,
HDF5, recording, language bindings, applications, and the inside of asio, recycle,
ecaludp, tcp_pubsub, yaml-cpp and protobuf.

Data races (two threads touching the same variable without a lock) are the subject of the
area Rac only, which knows accesses and locks and no values; the other areas take the functions
as they are meant, where races matter they are mentioned in the comment of the model.

## Findings

The refuted theorems show where the code as it is does not do what the property says.
Each is a proof with a concrete witness (or for all inputs of a class), listed here with
the comment it carries.

* `c02_insert_then_refresh_refuted`: A key inserted twice and then refreshed is removed by a purge that runs within the timeout of the refresh.
* `c04_equal_time_stamps_refuted`: Without the assumption on the clock is false: two events sent within one microsecond, with a poll in between; the second one is never delivered.
* `c05_one_unreadable_payload_hides_the_others_refuted`: Of the receiver as a whole: process 1 sends the list [1], stays alive and sends nothing else; process 2 starts and ends around the poll; the poll that would have delivered the list delivers nothing.
* `c08_drop_count_refuted`
* `c10_filtered_messages_count_as_dropped_refuted`: , a consequence worth knowing: messages the user filtered out are later reported as dropped, although every message arrived in order.
* `c11_overlapping_check_events_refuted`: Is false of the code when a check runs while an announcement is being applied: the disconnected event can come before the connected event it belongs to.
* `c11_overlapping_check_flag_refuted`: , and after such an overlap the subscriber can count as disconnected although a publisher is listed, even after a further, undisturbed check.
* `c12_overlapping_check_events_refuted`: Is false when a check overlaps the handling of a subscription, as in C11.
* `c16_layer_started_during_zero_copy_send_refuted`: If a subscription starts another layer while a zero-copy send is under way, that layer is handed the publisher's internal buffer, which was never filled: bytes outside of it are read.
* `c17_no_files_refuted`: If a memory file could not be created, the first send divides by zero.
* `c18_exclusive_access_refuted`: Destroying any object opens the lock, whoever holds it; a second object then gets access.
* `c18_creator_with_smaller_size_refuted`: A second creator asking for fewer bytes cuts the file under the first one, whose next write faults.
* `c18_creator_after_reader_refuted`: A creator in a process that already reads the file gets a read only mapping and faults on its first write.
* `c18_read_bound_overflow_refuted`: Read adds length and offset in size_t; with a wrapped sum it copies from outside of the mapping.
* `c19_failed_payload_refuted`: A payload that could not be produced is published: the send returns true and the observer hands over what happens to be in memory.
* `c20_stale_address_refuted`: When a mapping grows for one object, a second object of the same process keeps the old address and faults.
* `c20_mapping_leak_refuted`: If the mutex cannot be created, the mapping is never given back.
* `c21_destructor_releases_foreign_lock_refuted`: For the plain mutex: destroying an object that does not hold the lock releases the lock of the holder (all other rules kept).
* `c21_foreign_unlock_refuted`: For the plain mutex: Unlock of a client that does not hold the lock releases it.
* `c21_creation_race_refuted`: For both: a client that opens the mutex while another one creates it may take the lock, which the end of the creation forgets.
* `c21_creation_race_fault_refuted`: For both: or it may be killed because the file has no size yet.
* `c21_creation_race_no_handle_refuted`: For both: two clients that start at the same time; one of them ends up without a mutex although it exists.
* `c21_owner_unlinks_refuted`: For both: the creator unlinks the name when it is destroyed; who opens it afterwards gets another mutex than those who still have it open.
* `c21_holder_dies_refuted`: For the plain mutex: the death of the holder locks everybody out, the lock is never granted again although nobody holds it.
* `c22_set_during_creation_lost_refuted`: A set through a handle that was opened while the event was being created is lost.
* `c22_handle_without_event_refuted`: When two clients open a new event at the same time, one of them may get a handle without an event; its sets report success and do nothing, its blocking waits return at once.
* `c22_creation_race_fault_refuted`: Or it is killed, because the file has no size yet.
* `c22_owner_closes_first_refuted`: Closing a handle with ownership removes the name; sets through handles opened later do not reach the handles opened before.
* `c23_old_acknowledgement_refuted`: The acknowledgement of an earlier message is taken for this one: the send returns without any timeout although the reader waited for never got the message.
* `c23_waited_for_again_refuted`: A reader that timed out is waited for again, without having connected again, as soon as the file is replaced by a larger one.
* `c23_acknowledgement_lost_refuted`: An acknowledgement of this very message is lost and the reader times out, if the reader was woken by an older signal.
* `c24_restart_refuted`: An observer that was stopped and started again hands over a message a second time.
* `c26_any_size_refuted`
* `c27_whole_requests_refuted`: The legacy server cuts requests wherever the network does.
* `c29_stop_while_connecting_refuted`: A stop while the connection is being made is without effect: the session connects, and the calls accepted before are sent and answered.
* `c29_error_order_refuted`: Error answers may overtake each other.
* `c29_idle_loss_is_noticed_refuted`: A connected session may have nothing pending: a loss of the connection goes unnoticed until the next call.
* `c30_stopped_session_raises_timeout_refuted`: A timeout event is raised for a call that was never sent and for which nothing timed out.
* `c31_described_method_terminates_refuted`: A method that was only described terminates the process when it is called.
* `c31_removed_callback_called_refuted`: A callback can be called after it was removed.
* `c32_client_removed_callback_refuted`: For the client: for each type of event, the next event after the removal of its callback stops the process.
* `c32_server_removed_callback_refuted`
* `c33_no_reconnect_refuted`: A failed session stays failed whatever happens later, further announcements of the same server and refreshes included.
* `c33_events_repeat_refuted`: After the loss each announcement of the server raises a connect event and each check a disconnect event, without end; between the two the client counts as connected although it has no usable session.
* `c34_v2_full_mask_refuted`: A mask without host bits puts every topic on the address of the registration.
* `c34_v2_fixed_last_bit_refuted`: A mask with host bits but a fixed last bit does so for some topics.
* `c34_v1_group_ignored_refuted`: For version 1: the second to fourth octet of the group are ignored, so that topics of the group 239.5.0.1 are sent outside of 239.5.0.0/16, whatever they are.
* `c34_v1_malformed_refuted`: For version 1: a group whose first octet has two digits gives a malformed address.
* `c35_reads_outside_refuted`: Exactly the datagrams of less than two bytes and those whose announced size seems to fit but which contain no zero are read beyond their end; a three byte datagram suffices.
* `c35_deaf_refuted`: After a damaged datagram, or an error of the socket, nothing is received any more.
* `c35_deaf_after_error_refuted`
* `c35_long_name_refuted`: A topic name of 65535 bytes or more makes the receiver read outside, unless the payload contains a zero.
* `c35_name_size_ignored_refuted`: The name is not compared with its announced size; here the payload begins within the name.
* `c36_failed_join_refuted`: A join that failed is not tried again, however many subscribers of the topic are created.
* `c36_race_refuted`: The layer takes no lock; two threads that create subscribers race on its table.
* `c37_other_destroyed_refuted`: The statement as a whole does not hold: when one of two subscribers of a topic is destroyed, the other one is connected to nobody, however often publishers are announced, until a further subscriber of the topic is created.
* `c38_long_names_refuted`: With names of 65536 bytes or more the header is written behind the end of its buffer.
* `c38_2gib_refuted`: The receiver of a payload of 2 GiB or more reads outside of the buffer.
* `c38_4gib_refuted`: A payload of 4 GiB or more is handed over without its end.
* `c38_empty_name_refuted`: A message of a topic without a name is handed to the topic of the message before.
* `c38_short_refuted`: A message of fewer than six bytes is read beyond its end.
* `c39_payload_of_4gib_refuted`: From 4 GiB on (here up to 16 GiB) a payload is written but cannot be read.
* `c39_used_struct_keeps_payload_refuted`: Read into a struct that has been used before, an empty payload leaves the old one.
* `c40_request_of_4gib_refuted`: From 4 GiB on (here up to 16 GiB) requests and responses are written but cannot be read.
* `c40_response_of_4gib_refuted`: The same for responses.
* `c41_os_name_lost_refuted`: The name of the operating system never arrives, nor the entity id of a process.
* `c41_process_id_lost_refuted`
* `c41_empty_list_refuted`: An empty list is written as an empty buffer, and that is not accepted.
* `c43_result_refuted`: So it is not whether any subscriber accepted the message: here the first one did, the second one listens to another id.
* `c44_id_suffix_refuted`: Is false for other ids: "7" and "7x" are the same entry, and the withdrawal of one removes the other.
* `c44_two_hosts_refuted`: Across hosts: the host is not part of the key, so two publishers on different hosts with the same id share one entry, and the withdrawal of one removes the other.
* `c44_dropped_method_refuted`: Is false for a method that a service stops offering: it stays listed although the latest registration of the service does not contain it.
* `c45_crash_refuted`: There is a message that decodes to a sample, passes the filters of every process with network communication, and makes applying it throw in every state; the id is empty in one such message and a number of 65 bits in another.
* `c46_hosts_refuted`: Across hosts, for every kind: of two entities that differ in the host only one is shown, and the withdrawal of one removes the other.
* `c46_hosts_withdraw_refuted`
* `c46_names_refuted`: On one host, for every kind: a name ending in a digit runs into the id or process id, so entities with different names share an entry.
* `c46_service_ids_refuted`: The same for services of one name: id and process id run together.
* `c46_stale_filter_refuted`: Is false for filters changed while they are on: the patterns of the old list stay in force.
* `c46_case_filter_refuted`: Is false for patterns that differ only in case: the second one is dropped, although \d and \D mean opposite things.
* `c46_comma_filter_refuted`: Is false for a pattern with a comma: it is cut into pieces, one of which is not a regular expression, and the first registration of a topic terminates the process.
* `c47_needs_directory_refuted`: The console and the network need no file; but if the file filter is not empty and the log directory is missing, nothing is logged anywhere and nothing is received, whatever happens until a later start finds the directory or has no file filter.
* `c47_disabled_sink_refuted`: A sink that is switched off is still used: its filter alone counts.
* `c48_round_trip_refuted`: Otherwise it is taken apart: only a space makes ToCommandLine quote the argument, but ToArgv separates arguments at every blank.
* `c48_split_refuted`
* `c50_undefined_refuted`: Cleaning a relative path that leads back to its start and ends in a slash reads the last character of an empty string.
* `c50_dot_refuted`: A leading dot is taken for a directory that can be left.
* `c50_combined_refuted`: In the style that is the default a relative path can become an absolute one and is not yet clean.
* `c51_withdrawal_sent_on_shutdown_refuted`: , shutdown, is false: a schedule in which shutdown completes and the process withdrawal is never sent (the thread wakes up only after the stop flag was set).
* `c52_mixed_queue_sizes_refuted`: Processes configured with different queue sizes; a receiver reads outside of its local buffer.
* `c54_overwritten_list_refuted`: In general. First: two lists sent between two polls, the first one is lost.
* `c54_last_list_of_ending_process_refuted`: Second: the last list of a process that ends before the poll is lost.
* `c54_samples_applied_twice_refuted`: Third: the lists of two processes in one poll; the samples of the first message are applied twice.
* `c55_different_publishers_same_hash_refuted`: For any two topic ids whose string hashes agree in the lowest bit there are clocks at which messages of the two publishers have the same hash, so a subscriber takes one for a duplicate of the other.
* `c56_counter_wraps_refuted`: The counter wraps, 2^32 sets count as none.
* `c57_empty_refuted`: The empty ones are written as an empty buffer, and that is not accepted.
* `c59_handshake_hides_disconnect_refuted`: A session in its handshake hides that the last client has gone, and if its handshake is then refused the server believes for ever that it has a client.
* `c59_next_client_not_reported_refuted`
* `c59_wrong_event_refuted`: A client of one protocol version in its handshake turns the departure of one of two clients of the other version into a disconnect event, and its own connection is not reported.
* `c59_order_refuted`: The callbacks of two changes can run in the wrong order.
* `c59_is_connected_in_handshake_refuted`: IsConnected is true for a session in its handshake.
* `c60_response_lost_refuted`: Is false for methods in general: one live service describes the response fully, but an incomplete description of another one is reported; and the two functions that report the same method disagree.
* `c60_methods_disagree_refuted`
* `c61_forged_line_refuted`: A message with a line feed forges a line: two histories, with one and with two messages, give the same file.
* `c61_zero_byte_refuted`: A message is cut at its first zero byte: two different messages give the same line.
* `c61_restart_refuted`: A second start within the same second empties the file again, whatever was written.
* `c62_yaml_refuted`: Converting a configuration to YAML and back enables every level of every sink that has one enabled.
* `c63_replace_empty_refuted`: Replacing the empty string never ends: no number of rounds of the loop is enough.
* `c64_last_empty_refuted`: An empty part is kept at the front and lost at the end.
* `c64_extra_part_refuted`: When empty parts are kept, a blank at the end and the empty line make a part that is not there.
* `c65_backslash_refuted`: A backslash cannot be escaped: of two backslashes before a variable the first stays and the second suppresses the expansion.
* `c65_unclosed_refuted`: An opening brace without its counterpart is swallowed together with the name.
* `c66_root_refuted`: In the root directory a relative path is joined with two slashes, and its first component is then taken for a network host that cannot be left.
* `c66_backslash_refuted`: A file whose name has a backslash equals another file.
* `c67_relative_refuted`: Otherwise it does not: for a path above the base, below the base, and besides it in the root.
* `c68_root_refuted`: For the root directory, which always exists, it reports failure.
* `c70_null_refuted`: Creating a publisher before Initialize, after the last Finalize, or without the publisher component dereferences a null pointer; so does Initialize with a Configuration object that is older than the last Finalize, and printing the configuration without time synchronisation.
* `c70_early_finalize_refuted`: A Finalize before the first Initialize is answered "already finalized" and yet counted: after two further Initialize a single Finalize shuts eCAL down.
* `c70_combination_refuted`: IsInitialized never confirms a combination of components, not even the one that was just initialized.
* `c71_answered_once_refuted`: The request is answered once: the second call of Ok says yes again, so that with two loops in one process only one of them ends.
* `c71_not_initialized_refuted`: Ok says yes although eCAL is not initialized.
* `c72_terminates_refuted`: Started a second time, stopped from its callback, or stopped by two threads at once, it does.
* `c72_restart_refuted`: A thread started again after a stop never runs its callback: the stop flag is never reset.
* `c73_burst_refuted`: After being late by k periods (a long callback, a clock set forward) the next k callbacks run one after the other without any pause.
* `c74_same_time_refuted`: Two ticks at the same clock reading give the largest double, and registering it is undefined.
* `c76_deadlock_refuted`: A method that passed the check of get_client_manager just before the stop took the mutex waits for it, the stop waits for the method's thread, and neither ever goes on.
* `c76_self_refuted`: A stop called from inside a method joins its own thread.
* `c77_late_refuted`: That session is started after the stop and runs until its client leaves.
* `c78_starved_refuted`: Four methods that wait for blocking calls occupy all io threads; no answer is ever handled again.
* `c79_null_refuted`: A module without etime_is_synchronized is reported as not loaded, yet initialised and asked by the next registration of the process.
* `c79_other_module_refuted`: Started again with another module name the gate reports the new name but asks the old module.
* `c79_unbalanced_refuted`: After a change of the mode the module of the other mode is initialised again and never finalised.
* `c79_ignored_refuted`: As built, the time functions ignore the plugin altogether.
* `c79_sleep_twice_refuted`: With the gate compiled in, a sleep without plugin (or with one) is done twice.
* `c80_priorities_default_refuted`
* `c80_filters_default_refuted`
* `c80_drop_key_refuted`: The documented key of the subscriber is not the one that is read.
* `c80_all_or_nothing_refuted`: A document that is refused has changed some sections already.
* `c81_transport_layer_refuted`: The transport layer is not written.
* `c81_registration_layer_refuted`: Nor is the layer of the registration: it becomes the default one.
* `c81_drop_refuted`: It is written under one key and read under another.
* `c81_filters_refuted`: Log filters become wider.
* `c81_unknown_layers_refuted`: Layers that are none of the three are lost.
* `c82_tcp_refuted`: The enabling of TCP in the publisher is written as that of shared memory.
* `c82_drop_refuted`: The drop flag is not read back.
* `c82_backslash_refuted`: A regular expression with a backslash makes the file unreadable.
* `c82_unknown_layers_refuted`: A list of layers without one of the three is undefined.
* `c84_transport_layer_refuted`: If the file mentions one setting of it, the others become the default ones.
* `c84_registration_layer_refuted`: The layer of the registration always becomes the default one.
* `c84_drop_and_filters_refuted`
* `c85_hexadecimal_read_refuted`: Hexadecimal ones do not: the mask ff.ff.ff.f0 is taken for 0.0.0.0, which may not be configured.
* `c86_absolute_path_first_refuted`: A path from the root is not taken as it is: a file below the working directory comes first.
* `c86_config_path_refuted`: GeteCALConfigPath: without ECAL_DATA a file in the working directory hides the one in /etc/ecal, and the answer is the one for nothing found.
* `c88_zero_length_refuted`: That no more is written than was announced is wrong: length 0 is the request to allocate, and the address takes up eight bytes.
* `c89_zero_refuted`: That 0 means that there was no message is wrong, and the message is lost.
* `c89_both_pointer_refuted`: That a positive length comes with a pointer to that many bytes is wrong: without memory the call reports success and the length, and the pointer is whatever it was.
* `c89_call_refuted`: That the result tells a successful call from a failed one is wrong: both are 0 when the response is empty.
* `c91_nested_refuted`: That the buffer also survives a callback of the same thread inside the callback is wrong.
* `c92_deprecated_class_refuted`: With CMsgSubscriber a message can arrive between the end of the derived destructor and that of the base.
* `c92_message_during_move_refuted`: A message that arrives inside the move constructor is lost.
* `c92_refused_callback_refuted`: A callback whose registration was reported as failed is called later all the same.
* `c92_self_assignment_refuted`: Assigning an object to itself ends its subscription.
* `c93_changed_type_refuted`: So a publisher whose type changes while the subscriber lives is decoded with the old type.
* `c93_error_callback_moves_refuted`: The error callback does not move with the object.
* `c93_other_topic_refuted`: A dynamic object that is given another topic decodes with the type information of the topic it was constructed with.
* `c94_first_subscriber_refuted`: The subscription is checked twice: if the first subscriber appears in between it receives an empty message that nobody sent.
* `c94_short_serializer_refuted`: A serializer that writes fewer bytes than it announced publishes remains of the previous message.
* `c95_destroy_withdraws_refuted`: Destroy leaves the server on the network.
* `c95_request_during_destruction_refuted`: A request that arrives between the destructor of the protobuf server and that of its base uses destroyed members.
* `c95_second_type_refuted`: A second creation with a service of another type keeps name and methods of the first: its methods are called on the second service.
* `c98_documented_refuted`: With an index further inside it is not: inserting a.b[1] leaves a.b out and puts b in, so that a decoder asking for the field a.b first never reaches a.b[1].
* `c98_erase_missing_refuted`: Erasing what is not there is undefined: the iterator past the end is moved on.
* `c98_erase_undo_refuted`: Erasing does not undo the insertion only: a field inserted for itself goes with the field erased below it.
* `c98_erase_letters_refuted`: Erasing leaves a field in the filter because another field's name begins with the same letters.
* `c98_two_indices_refuted`: A name with a second index and a field behind it is rejected although it was inserted.
* `c98_star_hidden_refuted`: A star does not help any more once something else was inserted for the same index: with a[*].b the name a[1].b is accepted, and with a[1].c in addition it is rejected.
* `c99_filtered_refuted`: With an index further inside nothing is visited: a.b[0] is inserted and is in the message, and the visitor is given no value.
* `c100_forward_refuted`: Otherwise not: a file which does nothing but import another one publicly is left out, although the file of the message imports it, and the file it stands for comes too late.
* `c100_service_refuted`: What a file with services or enums but without message types imports is left out.
* `c100_cost_refuted`: The imports are followed again each time, whether they are in the set or not: a chain of n + 1 files with two message types each takes 2^n calls and more.
* `c101_same_name_refuted`: If a file in front of the type's own begins with a type of the same short name, this one is taken: b.Pose is decoded as a.Pose.
* `c101_nested_refuted`: A type nested in another is not found.
* `c101_changed_refuted`: A file which changes is not used any more in its new form: whatever a deserializer gives later comes, among the files of this name, from the first one.
* `c101_second_text_refuted`: A decoder that has been given one text refuses every other: both are called foo.proto.
* `c101_service_refuted`: If the file of the service has imports there is none at all.
* `c102_withdrawal_final_refuted`: "A subscriber whose withdrawal has been delivered is not listed" fails: registrations carry no time or number, so an older datagram that arrives after the withdrawal (UDP may reorder and duplicate) lists the subscriber again, although it no longer exists, until the timeout.
* `c102_mutual_refuted`: "A subscriber that lists a publisher is listed by it" fails: a publisher tells others only how many local and external subscribers it has, not which, so a subscriber whose own registration never reached the publisher takes the connection of another one on the same side for its own.
* `c102_group_members_refuted`: "Processes of one host group hear each other" fails: without loopback a process takes every registration of its group that bears its own process id for its own, also when it comes from another host (IsSameProcess compares the process id alone).
* `c103_early_server_refuted`: A server created before Initialize says it is created and runs, but is not announced even once eCAL is initialized with services; Create cannot repair it.
* `c103_survivor_refuted`: A publisher that outlives Finalize and a new Initialize still says it is created, but no longer works, and Create does nothing for it.
* `c103_server_started_refuted`: Create of a server returns true although, after Finalize, the server did not start.
* `c103_nameless_client_refuted`: A client without a service name is announced, but its end is never withdrawn.
* `c104_without_lock_refuted`: If the lock file cannot be made, a program that could not be executed is reported as started.
* `c104_interrupted_refuted`: A signal that interrupts the wait for the lock turns a failure into a success.
* `c104_zero_refuted`: 0 is returned although the program runs: after five seconds, or if the FIFO could not be made; after a timeout the lock file stays behind.
* `c104_stuck_refuted`: With the timeout at the wrong moment the grandchild waits for the FIFO's reader for ever.
* `c104_blocking_refuted`: A blocking start does not wait: the program is not the caller's child.
* `c104_fifo_left_refuted`: A failed first fork leaves the FIFO behind.
* `c105_gap_refuted`: A rate set between the copying and the waiting is not noticed: the thread comes back long before the target, however slow the new rate is.
* `c105_late_refuted`: The same if the thread was waiting, was notified in time and got the processor late.
* `c105_forever_refuted`: With the rate 0, a time set between the copying and the waiting is not noticed: the thread sleeps on for ever although the target is long over.
* `c105_two_setters_refuted`: Two callers of setRate that get the mutex in the other order than they read the clock make the thread believe that the time was set back: it comes back although nobody set the time, even if the rate never changes.
* `c105_backwards_refuted`: And the time goes back.
* `c105_abort_refuted`: A time set back is not noticed by a waiting thread if a later one is set before it runs.
* `c106_fork_refuted`: A child forked after the id was asked for goes on speaking with the id of its parent, for ever: parent and child are announced as one and the same process.
* `c106_threads_refuted`: Two threads that ask for the id as text at the same time: one of them can get no text at all.
* `c106_parameter_back_refuted`: An argument with a tab is announced as two.
* `c106_task_refuted`: The parameters of the task are never there: nothing stores them, the answer is always empty.
* `c106_task_line_refuted`: Empty parameters at the beginning would leave no trace.
* `c106_components_refuted`: Services and monitoring are never named.
* `c106_same_key_refuted`: If the name of the executable could not be read at first, the process is registered under one key and unregistered under another.
* `c106_unit_refuted`: Started without a name, the unit has none: it is announced with an empty name, not with that of its executable.
* `c107_reserved_refuted`: A domain may be named like a publisher's file: then the registration of that domain and the publisher share one memory file.
* `c107_nested_refuted`: The broadcast file of one domain may have the name of a payload file of another.
* `c107_long_refuted`: A domain with a long name gets its broadcast file, but no process ever gets a payload file: nobody is registered, and nothing is reported.
* `c107_draw_refuted`: Nothing prevents that: the second publisher finds the file of the first and takes it for its own.
* `c107_base_refuted`: The name of a file does not determine the base name and the number it was built from.
* `c107_clock_refuted`: The payload files of two processes that read the same time when they start are one file.
* `c107_failed_refuted`: A publisher whose file cannot be made anew stays without a file for ever and keeps telling the name of the file it did not get.
* `c108_json_same_name_refuted`: If an earlier file begins with a type of the same short name, the JSON deserializer never loads the file of the type and leaves by an exception which is not a DynamicReflectionException but a pointer to one.
* `c108_json_changed_refuted`: The JSON deserializer decodes every later type information of the same type name with the first type, whatever its descriptor says.
* `c108_json_hidden_refuted`: In the JSON deserializer a type without package hides those of the same name in packages: after Msg the type p.Msg is not found.
* `c108_proto_garbage_refuted`: Bytes that are no message of the type are handed to the callback of a dynamic protobuf subscriber as well: it gets what was parsed before the fault.
* `c108_capnp_first_refuted`: The Cap'n Proto deserializer does not load the schema of a type information it does not know, only of those it knows: the first readable message of each type information ends in an exception, whatever it is.
* `c108_capnp_memory_refuted`: There is no bound on the memory of a Cap'n Proto deserializer, even if all messages are small.
* `c108_json_terminates_refuted`: A subscriber of JSON ends the process when bytes arrive that are no message of the type: the pointer that is thrown is caught nowhere, the error callback is not called.
* `c108_capnp_no_call_refuted`: The callback of a dynamic Cap'n Proto subscriber is never called, unless Receive has been called before.
* `c108_capnp_terminates_refuted`: With a dynamic Cap'n Proto subscriber that has a callback, the first message of a topic whose type is known ends the process.
* `c108_capnp_receive_refuted`: Receive of a dynamic Cap'n Proto subscriber throws at the first message of a topic whose type is known.
* `c109_flatbuffers_reuse_refuted`: Not true: receiving a flatbuffers message into an object that received one before gives that message. The bytes are put in front of the old ones (PushFlatBuffer), so an object used in a loop grows with every message, and sending it on sends all of them.
* `c109_flatbuffers_large_refuted`: Not true: every flatbuffers message can be received. The size is converted to int: from 2 GiB on it is negative and memory outside of the buffer is read.
* `c109_capnp_kept_refuted`: Not true: a Cap'n Proto message that was received keeps its contents until the user drops it. What Receive and the callback give is a reader into the one message builder of the subscriber; the next message clears it.
* `c109_capnp_length_refuted`: Not true: bytes that are accepted as a Cap'n Proto message are whole words. The size is divided by eight, the remainder is not looked at.
* `c109_null_refuted`: Not true: a dynamic publisher that was made without a message refuses to send. The missing message is tolerated when the topic is announced (with an empty type) and not when it is sent: a null pointer is followed.
* `c109_moved_builder_refuted`: Not true: a Cap'n Proto publisher that was moved from cannot change what the new one sends. The move is generated by the compiler; the root builder is copied and still points into the message.
* `c110_c_stop_refuted`: Not true: in C, a callback may stop another timer. The mutex that all callbacks of the process share is held during the callback; if the thread of the other timer is just about to call back, it waits for the mutex, and the callback waits for it to end.
* `c110_self_stop_refuted`: Not true: a callback can stop its own timer. It joins its own thread, which throws, and the exception leaves the thread.
* `c110_early_stop_refuted`: Not true: whenever a callback of a timer runs, Stop finds the timer running. The first callback can run before Start has noted that the timer runs; Stop then says false, does nothing, and the timer goes on.
* `c110_both_stop_refuted`: Not true: two threads may stop a timer. Both find it running, both join; the second finds no thread to join and throws.
* `c110_null_refuted`: Not true: a null callback is tolerated. In C++ the thread ends at once, while the timer counts as running; in C the callback is wrapped before it is tested, so the test never finds it null, and a null pointer is called.
* `c111_torn_refuted`: Is false for several calls: type name and encoding are separate questions. A publisher leaves between the two calls and another one appears, so the caller gets the type name of the first and the encoding of the second. No C function reports both at once.
* `c111_zero_refuted`: Is false for the answer 0: it stands for an unknown topic, for a known topic without description, and for a buffer that is too small. The caller cannot tell these apart.
* `c111_log_lost_refuted`: Is false for a buffer that is too small for the waiting log messages: eCAL_Logging_GetLogging returns 0, as it does for an empty log, and the messages are gone. A second call with any buffer returns 0, too.
* `c111_status_buffer_refuted`: Is false for eCAL_Time_GetStatus with a buffer of the caller: the function takes the address of the caller's pointer, and the text is written over that pointer instead of into the buffer. The variable holds 8 bytes and the text of a build without time synchronization has 37, so the call writes beyond the variable; a text of at most 8 bytes would replace the pointer.
* `c111_status_null_refuted`: Is false for eCAL_Time_GetStatus without a place for the number: the pointer is followed without a check, for every length.
* `c112_create_in_event_refuted`: Without rules: a subscriber created in an event of a subscriber, or a publisher created in an event of a publisher, stops the registration thread for ever. The gate's lock is held (shared) while the events are called, CSubGate::ApplyPubRegistration (ecal_subgate.cpp 254-273) and CPubGate::ApplySubRegistration, and creating needs it exclusively.
* `c112_ask_in_disconnected_refuted`: Without rules: asking IsPublished or GetPublisherCount in the disconnected event of the same subscriber stops the thread that sends the registrations; so does sending (or IsSubscribed, GetSubscriberCount) in the disconnected event of the same publisher. CDataReader::CheckConnections (ecal_reader.cpp 549-554) and CDataWriter::CheckConnections (ecal_writer.cpp 596-601) call the event while they hold the lock of the map that these calls lock again.
* `c112_ask_in_connected_refuted`: Without rules: the same calls in the connected event can stop both registration threads. The connected event runs with the lock of the event map and the call waits for the connection map; the send thread holds the connection map and waits for the event map to tell a disconnect. The flag m_connected is set before the connection is in the map (ecal_writer.cpp 737-739 and 485), so the send thread does find an empty map and a connected publisher while the event runs.
* `c112_own_callback_refuted`: Without rules: a receive callback that removes or replaces itself, or destroys its subscriber, waits for itself (ecal_reader.cpp 371 and 193, 210, 127); so does a dropped event that removes the receive callback, and any event that changes the events of its own subscriber (750, 784 and 231, 248).
* `c112_cross_destroy_refuted`: Without rules: two subscribers whose receive callbacks destroy (or change the callback of) each other can wait for each other for ever.
* `c112_both_ways_refuted`: When the events of subscribers use publishers and the events of publishers use subscribers: one registration thread holds the lock of the subscribers and waits for that of the publishers, the other one the other way round. Each half alone is allowed by one of the sets of rules.
* `c112_finalize_refuted`: When the library is finalized: eCAL::Finalize waits, under the exclusive lock of the gate, for the receive callback of each subscriber (CSubGate::Stop, ecal_subgate.cpp 63-67; ecal_reader.cpp 127); a receive callback that creates a subscriber at that moment waits for the gate. Without Finalize that callback is allowed. Finalizing inside a receive callback waits for itself.
* `c112_customer_refuted`: Without rules: all customers of the registration are called under one lock, so starting or stopping monitoring inside a registration callback waits for itself, and doing it inside a receive callback can wait for a registration callback that destroys that subscriber (ecal_registration_sample_applier.cpp 53, 121, 127).
* `c113_methods_refuted`: For method callbacks: two threads can be inside the method callbacks of one server at the same time, and one can be inside while another thread has removed it and gone on. CServiceServerImpl::RequestCallback (ecal_service_server_impl.cpp 431-466) copies the entry of the method under the lock and calls the callback without it, and four threads serve (ecal_service_singleton_manager.h 72).
* `c113_client_event_refuted`: Without rules: an event of a client that asks the client IsConnected, changes its events or calls a service with a timeout that passes stops the registration thread for ever (m_connected_services_map_sync and m_event_callback_map_sync are held, ecal_service_client_impl.cpp 408-414, 400, 162, 215); a disconnected event that calls a service stops the send thread (m_client_map_sync is held, 753, 719).
* `c113_client_event_order_refuted`: Without rules: a connected event that calls a service can stop both registration threads: it holds the lock of the events and waits for the map of connections; the send thread holds the map and waits to tell a disconnect (ecal_service_client_impl.cpp 414, 719 and 753, 768).
* `c113_create_in_client_event_refuted`: Without rules: an event of a client that creates or destroys any client stops its thread for ever; the gate's lock is held (shared) while the events are called, ecal_clientgate.cpp 133, 165, and creating and destroying need it exclusively, 71, 82.
* `c113_response_refuted`: Without rules: a response callback that replaces or removes itself, destroys its client, or makes a call with callback on the same client waits for itself (ecal_service_client_impl.cpp 252, 368 and 144, 151, 109).
* `c113_same_connection_refuted`: Without rules: a blocking call without timeout in the response callback of an asynchronous call, to the same service, never returns. The new call is queued behind the one whose callback runs (client_session_impl_v1.cpp 382-440, 488-539).
* `c113_four_refuted`: Without rules: four method callbacks that each make a blocking call without timeout, to other processes that answer at once, never return: the answers would be read by the four threads in which the callbacks run (ecal_service_singleton_manager.h 72, ecal_service_singleton_manager.cpp 113-117). All servers and clients of the process stand still.
* `c113_both_ways_refuted`: When events of clients use subscribers and callbacks of subscribers use clients: an event of a subscriber creates a client while an event of a client creates a subscriber, or a receive callback asks a client IsConnected while an event of that client destroys the subscriber.
* `c113_finalize_refuted`: For Finalize: ServiceManager::stop joins the four threads while it holds singleton_mutex (ecal_service_singleton_manager.cpp 164-175), so a method callback that is about to make a new connection, past the check of [stopped] (93-97), waits for the mutex and Finalize for the callback; and CClientGate::Stop holds the gate (ecal_clientgate.cpp 57) while it waits for a response callback that may be creating a client.
* `c114_silent_refuted`: For silence alone: a service that nobody hears any more stays known - and is called - until some other registration of a service arrives: only CClientGate::ApplyServiceRegistration removes what has expired (ecal_clientgate.cpp 127-128), and GetServiceAttr (144-158) does not look at the time. If the only server of a network dies, it is known for ever.
* `c114_withdrawn_refuted`: For withdrawn services: a server that is destroyed sends its withdrawal (ecal_service_server_impl.cpp 356-374), but the gates ignore it (ecal_registration_sample_applier_gates.cpp 46-47). In this run no server is left and the withdrawal has arrived; the client still knows the server, calls itself connected and sends its calls there.
* `c114_slow_refuted`: For slow registrations: the table of services forgets after five seconds (ecal_clientgate.h 67-69 uses the default of ecal_expmap.h 182), whatever registration.registration_refresh and registration_timeout say. With a refresh of six seconds a living server, all of whose registrations have arrived, is unknown whenever another one was heard more than five seconds after it.
* `c114_lost_refuted`: For IsConnected: a service that has disappeared before the client opened a session to it counts as connected for ever, because only failed sessions end a connection (ecal_service_client_impl.cpp 751-780). In this run the client calls itself connected although there is no server of that name, none is known, the client has no session and its calls go nowhere.
* `c114_late_refuted`: For clients created after the registration: creating a client (ecal_service_client_impl.cpp 69-95) counts no service, a call looks at the table of the gate (711-749); until the next registration arrives IsConnected says no although the service is known and calls reach it.
* `c114_group_refuted`: For host groups: two processes of one host and one host group, which does not bear the host's name, without network mode, do not find each other's services: the registration of a service carries no host group, so the sample applier compares its host name with the name of the group (ecal_registration_sample_applier.cpp 62-94). Publishers and subscribers carry their host group and find each other.
* `c114_loopback_refuted`: For loopback: with such a host group and network mode a process hears its own services although loopback is off: its own host counts as far away, and registrations from far away are not checked for the own process id (ecal_registration_sample_applier.cpp 103-117).
* `c114_mute_refuted`: For servers that listen on one of two ports: GetRegistrationSample returns a sample without name, host and ports when the port of one protocol is 0 (ecal_service_server_impl.cpp 316-321), and the provider sends it. Other processes in network mode keep an entry without content; the server is not found although its other port is open.
* `c115_early_refuted`: A process that is asked before its first call of Ok never learns of it: ShutdownProcess creates the event, sets it and, having opened it as its owner, deletes it again; the process then creates a new one.
* `c115_again_refuted`: A process can be asked only once: ShutdownProcess closes the event as its owner, which deletes the name; the process keeps the deleted file (it opens the event only once), and everybody who asks it later creates and deletes a new file. So a process that did not stop after the first no (or one thread of which got the only no) never gets another one.
* `c115_null_refuted`: A process whose first call of Ok runs while somebody asks it can be left without an event: both find no event, the other one creates it first, and the handle of the process stays empty for ever (it counts as valid, so it is not opened again). From then on Ok answers yes whatever happens.
* `c115_fault_refuted`: Such a race can also end the asked process, or the one that asks, with SIGBUS: one opens the file the other has created but not given a size yet.
* `c115_cleared_refuted`: While one request is still creating the event, the process can have opened it already; a second request sets it, and the first one clears it again with the last step of creating it: the second request is lost.
* `c115_next_process_refuted`: The event of a process that ends is not deleted, so a request made to it can stop the next process that gets the same process id.
* `c115_unit_name_refuted`: ShutdownProcess(unit_name) and eCAL_Util_ShutdownUnitName are documented to take the unit name of a process, but compare it with the process name (the path of its program): a process with this unit name is not addressed, and another one whose program has this name is.
* `c116_late_refuted`: Wrong: a publisher whose withdrawal the monitor has heard stays away. A registration of it that was sent before and arrives after the withdrawal lists it again for the whole timeout, although it does not exist any more and nobody has sent anything since: registrations carry neither a number nor a time.
* `c116_stale_refuted`: Wrong: once the monitor has heard of the present state of a process it shows that state. A registration that was sent before and arrives later replaces it, so that a process that has reported a failure is shown as healthy.
* `c116_twins_refuted`: Wrong: every process the monitor has heard of has an entry. Two processes of the same name and process id on different hosts (containers: every main process has id 1) share one, which shows whichever was heard last.
* `c116_mute_refuted`: Wrong: every server listed exists. A server that could not open the port of one of the two protocols registers with a blank sample; a monitor on another host lists a server without name, host, process and id, and does not list the server, which can be called on its other port.
* `c116_group_refuted`: Wrong: without network mode a monitor sees all of its host group. Between two hosts of one host group it lists publishers and subscribers but neither processes nor servers and clients: for these the host name is taken for the host group.
* `c117_layer_stays_refuted`: Wrong: a publisher writes only to layers some listed subscriber reads. A layer that was started is never stopped while the publisher lives: after the only subscriber of a layer has left, everything is still written to it (ecal_writer.cpp 464-480 starts layers, nothing stops them but Stop).
* `c117_unheard_refuted`: Wrong: a send that returns the size of the payload has put the message on some layer. Of a publisher that lists nobody it returns the size and sends nothing; a subscriber that exists already, but has not been heard of, misses the message (ecal_publisher.cpp 150-160).
* `c117_stranger_refuted`: Wrong: a subscriber gets messages only of publishers it lists. What arrives is handed on by the name of the topic alone: GetPublisherCount is 0 and the callback is called all the same (ecal_subgate.cpp 185-210).
* `c118_restart_refuted`: Wrong: after ObserveFile has returned true the file is watched for the timeout. If the thread had timed out (the process was held in a debugger, or registrations were missing for that long) and the observer has not yet been removed, it is started again without resetting m_time_of_last_life_signal (ecal_memfile_pool.cpp 99-119, 388-392): the new thread ends at once, and what the publisher sends until the next cleaning (up to a second) and the registration after it is missed.
* `c118_leaving_refuted`: Wrong: as long as IsObserving is true a registration keeps the observer. A thread that has left its loop, but has not yet said so (ecal_memfile_pool.cpp 162-163, 293), counts as observing: ObserveFile resets its time, returns true, and the thread ends.
* `c118_stop_refuted`: Wrong: a stopped pool hands nothing over. ObserveFile looks at m_created before it takes the lock (ecal_memfile_pool.cpp 370-374): a call that waits for the lock during Stop starts an observer afterwards, which hands over contents until it times out or the pool is destroyed.
* `c119_publisher_refuted`: The publisher. The clock, the id and the size of a publisher's topic and the marks of its layers are plain variables that the thread which sends writes without a lock, while the registration threads read them for the publisher's registration sample. The writers of the layers (unique pointers) and the marks that they are started are set by the thread that receives registration, while the sending thread tests and uses them. The name of the memory file (a string) is rewritten by the sending thread when the file has to grow, while the registration threads copy it; and changing the type information or the attributes of a publisher changes a string and a map that the registration threads copy.
* `c119_subscriber_refuted`: The subscriber. [SetID] replaces the set of accepted ids, and [SetAttribute] the map of attributes, while a receiving thread searches the one and the registration thread copies the other; the number of dropped messages and the marks of the layers are written under the lock of the receive callback and read without it; [Dump] reads the buffer (a string) and the time of the last message without the lock of the buffer.
* `c119_layers_refuted`: The reader layers, one object for all subscribers of the process. Two threads that create or destroy subscribers at the same time use the udp layer's flags, its receiver and its map of multicast groups without any lock; and with tcp the second one may use the executor while the first one is still creating it, since the mark that the layer is initialised is set before.
* `c119_services_refuted`: Services. The check for services that are gone, run by the registration thread, searches and erases the client's map of connected services while it holds the lock of another map, so that it meets a service being registered, or [IsConnected]. Stopping the gates of clients and servers holds their locks only shared, and stopping a client or server clears its name and id, which the registration threads read with the same lock held shared; and destroying a server clears them while its tcp threads copy them into a response.
* `c119_globals_refuted`: Switches of the whole process. Enabling the loopback, setting the callbacks for registration samples, the unit name, the state of the process, the texts of the monitoring filters and the log level: each is a plain variable, text or function object that is set without the lock under which, or without any lock while, the threads of the library read it.
* `c119_core_refuted`
* `c120_reuse_refuted`: Wrong: a call of a service is only ever executed by a server of that service. A request carries the name of the method only (ecal_service_client_impl.cpp 325-334, 455-462), and no server compares anything else (ecal_service_server_impl.cpp 400-480). When the server has gone and another service of the host has got its port, a client that has not noticed yet calls the other service, which executes it if it has a method of that name.
* `c120_lost_refuted`: Wrong: a client whose process knows a running server can get answers from it. One lost connection is enough: the session has failed, stays in the client under the key of the server and gets all further calls, and nothing ever makes a new one for this server (ecal_service_client_impl.cpp 711-749), although the server runs and registers as before.
* `c121_no_user_refuted`: Wrong: the functions are defined in every environment. Without HOME and without an entry for the user in the list of users, as in containers that run under a bare number, a null pointer is read (ecal_config_initializer.cpp 335-340): the process dies when it starts to log to a file.
* `c121_silent_refuted`: Wrong: a missing home directory matters for the log file only. If HOME names a directory that does not exist, only the last component is made, which fails, and nobody looks at the result (348-351); the entry of the user is not tried. Then with a file filter nothing is logged at all, neither to the console nor to the network, and nothing received (ecal_log_impl.cpp 131).
* `c121_file_refuted`: Wrong: the path returned leads to a directory if the home directory is one and can be written. If ".ecal" in it is a file, the path is returned all the same.
* `c121_empty_refuted`: Wrong: an empty HOME is no home directory. It is taken for the root directory, and the directory of the user is not tried: a process that may write there makes /.ecal (335-345).
* `c122_own_answer_refuted`: A request of the legacy protocol that reaches the server in pieces is executed piece by piece, and the caller is given the answer to the first piece (handle_read takes an empty socket for the end of the request, server_session_impl_v0.cpp 171-215; a request has no header, client_session_impl_v0.cpp 338-342).
* `c122_shifted_refuted`: One torn request of the legacy protocol moves the answers of all later calls of the connection by one: the answer to the rest of the torn request is taken for the answer to the next call, and the answer to every later request goes to the caller after it, without an error (receive_service_response takes the next response in the stream, client_session_impl_v0.cpp 363-412).
* `c122_empty_refuted`: A legacy call with an empty request is never answered, and no later call of the connection is: nothing is written, the client waits for a response, and the waiting calls are not sent (client_session_impl_v0.cpp 340-359, 385-405; no time limit).

Noticed while reading, without a theorem:

* `MessagePackDeserializer::Deserialize` (messagepack/subscriber.h 48) has four parameters, `CMessageSubscriber` calls it with three (subscriber.h 351, 412): a messagepack subscriber that receives does not compile.
* Names in shared memory: events are named by process id, so two subscribing processes with
  the same id (containers of one host group, each with ids of its own) share their events and
  only one of them wakes up per message. A moved-from `CNamedMutex` has no implementation left
  and must not be asked anything, not even `IsCreated`; assigning one to itself does the same.
* Logging: `Stop` does not stop the receiver, whose thread may use members already
  destroyed; `m_level` is read without lock; the log queue is unbounded; the time string
  is uninitialised if `localtime` fails; `logging.sinks.file.path` and `udp.port` are ignored.
* Services: the service id in a response is the server's id on success but the session's
  key on failure; failed sessions are never removed from the client's table; the user's event
  callback runs under the lock of the callback table; `create_server` may return a null
  pointer if the manager is stopped in between.
* Gates call user callbacks while holding their shared lock; adding or removing a receive
  callback from inside a receive callback deadlocks.
* `CDataWriterSHM` does not override `RemoveSubscription`; a failed `Recreate` leaves a dead
  slot; a `Recreate` inside `Write` does not trigger a new registration.
* `gOpenNamedEvent` with an empty name mixes up two types; a moved-to `CNamedMutex` leaves
  a null pointer behind; plain and robust mutex share one file name.
* `CReaderLayer::Get()` creates its singleton without synchronisation; layer parameters of
  remote hosts are applied to shared memory, too.
* Timer: stopping from inside the callback joins itself.
* `StartUdpLayer` and its siblings force a registration before the subscriber that caused them
  is in the table, so that registration still carries the old connection counts.
* `getTerminalEmulatorCommand` does not close the pipe to the stub if its version is wrong; if the
  terminal emulator cannot be executed the grandchild unlocks descriptor 0, its caller's standard
  input, instead of a lock file.
* `ServerImpl::start_accept` sets the option of the acceptor before it takes the lock of the acceptor
  (server_impl.cpp 162-163). In `CServiceServerImpl::Start` the first server accepts and answers before
  the member that points to it is assigned.
* `GetMonitoring` of `ecal_util.cpp` (186-198) initialises the monitoring if there is none and never
  finalises it. `CPubGate::ShareType` and `ShareDescription` set members that nobody reads.
* C interface: a null `char*` is passed to `std::string`; `eCAL_Sub_SetID` always returns 1.
* `messagepack::CSubscriber` cannot be instantiated (its deserializer takes four parameters
  and is called with three).
