{"id": "C01", "title": "Entities that keep registering stay listed, silent ones disappear", "statement": "In every listing kept with a timeout (topics, services, processes, connections), an entity that has announced itself within the last timeout period is listed with the latest data it announced, and after a purge no entity is listed whose last announcement is older than the timeout. Looking an entity up does not prolong its life.", "quantifier": "every history of announcements, look-ups, removals and purges, every timeout and every non-decreasing clock", "why_tests_cant": "Depends on the whole interleaving of announcements and purges; tests use a handful of fixed sleeps.", "anchors": ["ecal/core/src/util/ecal_expmap.h:CExpirationMap::operator[]", "ecal/core/src/util/ecal_expmap.h:CExpirationMap::erase_expired", "ecal/core/src/util/ecal_expmap.h:CExpirationMap::erase", "ecal/core/src/util/ecal_expmap.h:CExpirationMap::find"]}
{"id": "C02", "title": "Explicit insertion into an expiring listing respects refreshes", "statement": "Inserting a key that is already present and then refreshing it keeps it alive for a full timeout after the refresh.", "quantifier": "every history of the expiring listing that also uses its explicit insert operation", "why_tests_cant": "The failure needs a duplicate insert, a refresh, and a purge in a particular time window.", "anchors": ["ecal/core/src/util/ecal_expmap.h:CExpirationMap::insert"]}
{"id": "C03", "title": "The shared-memory event queue is a bounded FIFO that forgets only the oldest", "statement": "After any sequence of pushes, pops and resets the queue holds exactly the most recent events that were pushed and not popped, at most its capacity, iterates them newest first, and a push to a full queue drops exactly the oldest event; popping an empty queue is reported as an error and changes nothing.", "quantifier": "every capacity greater than zero and every sequence of operations", "why_tests_cant": "Wrap-around positions and fill levels are unbounded; a test picks a few.", "anchors": ["ecal/core/src/registration/shm/relocatable_circular_queue.h:RelocatableCircularQueue"]}
{"id": "C04", "title": "Registration broadcast delivers every event exactly once", "statement": "A process that polls the shared-memory registration broadcast sees every event another process sent since its previous poll exactly once and newest first, unless the event was pushed out of the queue or is older than the poll's time limit; its own events are seen only with loop-back enabled.", "quantifier": "every number of senders and receivers, every interleaving of sends and polls, every queue capacity and every clock", "why_tests_cant": "Losses only show for particular interleavings and clock values across processes.", "anchors": ["ecal/core/src/registration/shm/ecal_memfile_broadcast.cpp:CMemoryFileBroadcast::SendEvent", "ecal/core/src/registration/shm/ecal_memfile_broadcast.cpp:CMemoryFileBroadcast::ReceiveEvents"]}
{"id": "C05", "title": "One unreadable broadcast payload does not hide the others", "statement": "If one announced registration payload cannot be opened, the registrations carried by all other payloads announced in the same poll are still applied.", "quantifier": "every batch of broadcast events and every subset of payload files that cannot be opened", "why_tests_cant": "Requires a crash or race in another process between announcing and opening.", "anchors": ["ecal/core/src/registration/shm/ecal_memfile_broadcast_reader.cpp:CMemoryFileBroadcastReader::Read", "ecal/core/src/registration/shm/ecal_registration_receiver_shm.cpp:CMemfileRegistrationReceiver::Receive"]}
{"id": "C06", "title": "Registration samples are accepted by origin exactly as configured", "statement": "A process applies a registration sample from its own host group unless it originates from itself and loop-back is off, and applies a sample from outside its host group only if network mode is enabled; every registered sample consumer is called exactly once for an accepted sample and never for a rejected one.", "quantifier": "every sample, every host, host group and process id, both loop-back and network settings, and every set of consumers", "why_tests_cant": "The decision depends on the combination of eight fields of sample and configuration.", "anchors": ["ecal/core/src/registration/ecal_registration_sample_applier.cpp:CSampleApplier::ApplySample", "ecal/core/src/registration/ecal_registration_sample_applier.cpp:CSampleApplier::AcceptRegistrationSample", "ecal/core/src/registration/ecal_registration_sample_applier.cpp:CSampleApplier::IsHostGroupMember"]}
{"id": "C07", "title": "A subscriber never delivers a message twice and never goes back in time", "statement": "With out-of-order dropping enabled, the message clocks a subscriber delivers for one publisher are strictly increasing, whatever order and multiplicity the transport layers hand the messages over in; with it disabled no message is delivered twice as long as its duplicate arrives within the last 64 distinct messages.", "quantifier": "every sequence of arriving messages from any number of publishers over any mix of layers", "why_tests_cant": "The space of reorderings and duplicates across layers is unbounded.", "anchors": ["ecal/core/src/readwrite/ecal_reader.cpp:CDataReader::ApplySample", "ecal/core/src/readwrite/ecal_reader.cpp:CDataReader::CheckMessageClock"]}
{"id": "C08", "title": "The reported number of dropped messages is the number of messages missed", "statement": "The dropped-message count a subscriber publishes for monitoring equals the number of messages of its publishers that were skipped between delivered ones.", "quantifier": "every sequence of arriving clocks", "why_tests_cant": "Needs every gap pattern; a single-gap test may not reveal the size of the error.", "anchors": ["ecal/core/src/readwrite/ecal_reader.cpp:CDataReader::CheckMessageClock", "ecal/core/src/readwrite/ecal_reader.cpp:CDataReader::GetRegistrationSample"]}
{"id": "C09", "title": "A polling receive returns the newest undelivered message, once", "statement": "A polling receive call returns the content and time of the last message that arrived since the previous successful receive, reports nothing when none arrived, and never returns the same arrival twice; messages go to the callback instead while one is set.", "quantifier": "every interleaving of arrivals, receives and callback changes", "why_tests_cant": "Interleaving-dependent.", "anchors": ["ecal/core/src/readwrite/ecal_reader.cpp:CDataReader::Read", "ecal/core/src/readwrite/ecal_reader.cpp:CDataReader::ApplySample", "ecal/core/src/readwrite/ecal_reader.cpp:CDataReader::AddReceiveCallback"]}
{"id": "C10", "title": "A message is delivered only if its layer is enabled and its id is requested", "statement": "A subscriber delivers a message only if the layer it came through is enabled in its configuration and, when an id filter is set, the message's id is in the filter; a filtered message changes no counter and no buffer visible through the API.", "quantifier": "every configuration, filter set and message sequence", "why_tests_cant": "Cross product of layers, filters and history.", "anchors": ["ecal/core/src/readwrite/ecal_reader.cpp:CDataReader::ApplySample", "ecal/core/src/readwrite/ecal_reader.cpp:CDataReader::SetID"]}
{"id": "C11", "title": "Subscriber connect and disconnect events alternate and match reality", "statement": "The connected and disconnected events a subscriber raises strictly alternate starting with connected, the subscriber is connected exactly while at least one publisher of its topic is registered and not timed out, and an update event accompanies every applied publication.", "quantifier": "every history of publications, unpublications, timeouts and connection checks", "why_tests_cant": "Event order depends on the entire registration history.", "anchors": ["ecal/core/src/readwrite/ecal_reader.cpp:CDataReader::ApplyPublication", "ecal/core/src/readwrite/ecal_reader.cpp:CDataReader::RemovePublication", "ecal/core/src/readwrite/ecal_reader.cpp:CDataReader::CheckConnections", "ecal/core/src/readwrite/ecal_reader.cpp:CDataReader::FireConnectEvent", "ecal/core/src/readwrite/ecal_reader.cpp:CDataReader::FireDisconnectEvent"]}
{"id": "C12", "title": "Publisher connect and disconnect events alternate and match reality", "statement": "The connected and disconnected events a publisher raises strictly alternate starting with connected, and the publisher is connected exactly while at least one local or external subscriber is registered and not timed out.", "quantifier": "every history of subscriptions, unsubscriptions, timeouts and connection checks", "why_tests_cant": "Event order depends on the entire registration history.", "anchors": ["ecal/core/src/readwrite/ecal_writer.cpp:CDataWriter::ApplySubscription", "ecal/core/src/readwrite/ecal_writer.cpp:CDataWriter::RemoveSubscription", "ecal/core/src/readwrite/ecal_writer.cpp:CDataWriter::CheckConnections"]}
{"id": "C13", "title": "Consecutive sends carry consecutive clocks on every layer", "statement": "Every send of a publisher, and every call that only refreshes its send counter, advances the message clock by exactly one; all layers used by one send carry the same id, clock, time and hash, so a receiver that gets it over two layers can recognise it.", "quantifier": "every sequence of sends and counter refreshes on any set of active layers", "why_tests_cant": "History-dependent.", "anchors": ["ecal/core/src/readwrite/ecal_writer.cpp:CDataWriter::Write", "ecal/core/src/readwrite/ecal_writer.cpp:CDataWriter::PrepareWrite", "ecal/core/src/readwrite/ecal_writer.cpp:CDataWriter::RefreshSendCounter"]}
{"id": "C14", "title": "The transport layer chosen for a subscriber is the best one both sides allow", "statement": "For each newly seen subscriber the publisher activates the first layer of its configured priority list (local list for subscribers on the same host, remote list otherwise) that is enabled at both ends, and no layer if there is none; an activated layer stays active until the publisher is destroyed.", "quantifier": "every priority list, every enable combination at both ends and every sequence of subscriptions", "why_tests_cant": "Combinatorial in the lists and enable flags.", "anchors": ["ecal/core/src/readwrite/ecal_writer.cpp:CDataWriter::DetermineTransportLayer2Start", "ecal/core/src/readwrite/ecal_writer.cpp:CDataWriter::ApplySubscription", "ecal/core/src/readwrite/ecal_writer.cpp:CDataWriter::StartTransportLayer"]}
{"id": "C15", "title": "Send reports success exactly when some layer accepted the message", "statement": "A send returns the payload size if at least one active layer accepted the message, and zero otherwise.", "quantifier": "every set of active layers and every combination of their results", "why_tests_cant": "Combinatorial in layer results and zero-copy modes.", "anchors": ["ecal/core/src/readwrite/ecal_writer.cpp:CDataWriter::Write"]}
{"id": "C16", "title": "A subscription arriving during a zero-copy send never sends stale bytes", "statement": "Whatever moment a new network subscriber is registered at, the bytes sent to it are the bytes of the message being sent.", "quantifier": "every interleaving of one send with the registration thread", "why_tests_cant": "A race of two threads on one flag; tests cannot force it.", "anchors": ["ecal/core/src/readwrite/ecal_writer.cpp:CDataWriter::Write", "ecal/core/src/readwrite/ecal_writer.cpp:CDataWriter::StartUdpLayer", "ecal/core/src/readwrite/ecal_writer.cpp:CDataWriter::StartTcpLayer"]}
{"id": "C17", "title": "A shared-memory buffer ring leaves the last n-1 messages untouched", "statement": "With n memory buffers configured, the content of a published message stays unmodified until n further messages have been sent; buffers are used round robin, and with n > 1 every send writes the full payload.", "quantifier": "every n > 0, every number of sends and every payload size, with any interleaving of readers", "why_tests_cant": "Unbounded number of sends and reconfigurations.", "anchors": ["ecal/core/src/readwrite/shm/ecal_writer_shm.cpp:CDataWriterSHM::PrepareWrite", "ecal/core/src/readwrite/shm/ecal_writer_shm.cpp:CDataWriterSHM::Write", "ecal/core/src/readwrite/shm/ecal_writer_shm.cpp:CDataWriterSHM::SetBufferCount"]}
{"id": "C18", "title": "Shared memory is never accessed outside its mapping or outside its access window", "statement": "Reads return bytes only from below the data size the memory file reports, writes never exceed the mapped size, and both succeed only between the matching access call and its release; every failing call leaves the memory and its reported size unchanged.", "quantifier": "every sequence of create, access, read, write, release and destroy calls with every offset and length", "why_tests_cant": "Unbounded call sequences and lengths; violations are memory errors.", "anchors": ["ecal/core/src/io/shm/ecal_memfile.cpp:CMemoryFile"]}
{"id": "C19", "title": "A payload that could not be produced is not published", "statement": "If the user's payload writer fails to produce the payload, subscribers are not handed memory content as if it were that message.", "quantifier": "every payload writer and every memory content", "why_tests_cant": "Needs a failing writer combined with old memory content.", "anchors": ["ecal/core/src/io/shm/ecal_memfile.cpp:CMemoryFile::WritePayload", "ecal/core/src/io/shm/ecal_memfile_sync.cpp:CSyncMemoryFile::Write"]}
{"id": "C20", "title": "A shared memory mapping lives until its last user in the process releases it", "statement": "Within a process, a memory file stays mapped, at an address valid for every holder, until every holder has destroyed it, and is unmapped and optionally unlinked exactly once afterwards.", "quantifier": "every interleaving of creates, size checks, resizes and destroys of any number of holders", "why_tests_cant": "Reference-count errors need particular interleavings.", "anchors": ["ecal/core/src/io/shm/ecal_memfile_db.cpp:CMemFileMap::AddFile", "ecal/core/src/io/shm/ecal_memfile_db.cpp:CMemFileMap::RemoveFile", "ecal/core/src/io/shm/ecal_memfile_db.cpp:CMemFileMap::CheckFileSize"]}
{"id": "C21", "title": "Two processes never hold the same named lock", "statement": "Between a successful lock (or timed lock) and the matching unlock by the same process no other process's lock call on the same name succeeds, and a released lock can be taken again.", "quantifier": "every number of processes and every interleaving of lock, timed lock, unlock, open and close", "why_tests_cant": "Schedule-dependent across processes.", "anchors": ["ecal/core/src/io/mtx/linux/ecal_named_mutex_impl.cpp:CNamedMutexImpl", "ecal/core/src/io/mtx/linux/ecal_named_mutex_robust_impl.cpp"]}
{"id": "C22", "title": "A named event wakes its waiter once per signal", "statement": "A wait on a named event returns success only if the event was set since the last successful wait, a set with no waiter is remembered (at most once), and no set is lost while the event is unsignalled.", "quantifier": "every interleaving of set and wait calls by any number of processes", "why_tests_cant": "Schedule-dependent.", "anchors": ["ecal/core/src/ecal_event.cpp:named_event_set", "ecal/core/src/ecal_event.cpp:named_event_wait", "ecal/core/src/ecal_event.cpp:named_event_trywait"]}
{"id": "C23", "title": "Acknowledged sends wait for every responsive reader, and only for the configured time", "statement": "With an acknowledge timeout configured, a shared-memory send returns only after every connected reader that did not previously time out acknowledged this send or the total wait reached the timeout; a reader that timed out is not waited for again until it reconnects.", "quantifier": "every set of readers, every acknowledge timing and every number of sends", "why_tests_cant": "Timing-dependent.", "anchors": ["ecal/core/src/io/shm/ecal_memfile_sync.cpp:CSyncMemoryFile::SyncContent", "ecal/core/src/io/shm/ecal_memfile_sync.cpp:CSyncMemoryFile::Connect"]}
{"id": "C24", "title": "The shared-memory observer hands over each message at most once and in order", "statement": "For one memory file the messages handed to the subscriber have strictly increasing clocks, each is byte-identical to what the publisher wrote under that clock, and the acknowledgement is sent only after the subscriber has processed it.", "quantifier": "every sequence of memory contents and wake-ups", "why_tests_cant": "Depends on the wake-up pattern between two processes.", "anchors": ["ecal/core/src/io/shm/ecal_memfile_pool.cpp:CMemFileObserver::Observe", "ecal/core/src/io/shm/ecal_memfile_pool.cpp:CMemFileObserver::ReadFileHeader"]}
{"id": "C25", "title": "Service messages survive any TCP segmentation", "statement": "Every sequence of service requests or responses written with the current service protocol is read back on the other side as the same sequence of types and payloads, however the byte stream is cut into segments, and an incomplete message delivers nothing.", "quantifier": "every list of messages with payloads below 4 GiB and every segmentation of the byte stream", "why_tests_cant": "Unbounded messages and segmentations.", "anchors": ["ecal/service/ecal_service/src/protocol_v1.cpp:eCAL::service::ProtocolV1::async_receive_message", "ecal/service/ecal_service/src/protocol_v1.cpp:eCAL::service::ProtocolV1::async_send_message", "ecal/service/ecal_service/src/protocol_layout.h"]}
{"id": "C26", "title": "Arbitrarily large service payloads keep the stream in sync", "statement": "A service payload of any size that the API accepts is delivered complete and does not disturb the following messages.", "quantifier": "every payload size", "why_tests_cant": "The failing payloads are at least 4 GiB.", "anchors": ["ecal/service/ecal_service/src/protocol_v1.cpp:eCAL::service::ProtocolV1::async_send_message", "ecal/service/ecal_service/src/protocol_layout.h"]}
{"id": "C27", "title": "Legacy-protocol requests are delivered whole", "statement": "With the legacy service protocol the server's callback is called once per request with exactly the bytes the client sent, whatever the TCP segmentation.", "quantifier": "every request and every segmentation", "why_tests_cant": "Depends on network segmentation and timing.", "anchors": ["ecal/service/ecal_service/src/server_session_impl_v0.cpp:eCAL::service::ServerSessionV0::handle_read"]}
{"id": "C28", "title": "Protocol negotiation picks the highest common version or refuses", "statement": "For every version range a client offers, the server accepts the highest protocol version both sides support, and the connection is refused exactly if there is none.", "quantifier": "every pair of version bytes", "why_tests_cant": "Finite, but the claim is about the whole range including degenerate ranges.", "anchors": ["ecal/service/ecal_service/src/server_session_impl_v1.cpp:eCAL::service::ServerSessionV1::receive_handshake_request", "ecal/service/ecal_service/src/client_session_impl_v1.cpp:eCAL::service::ClientSessionV1::receive_handshake_response"]}
{"id": "C29", "title": "Every accepted asynchronous service call gets exactly one answer, in order", "statement": "Each asynchronous call a client session accepts has its callback invoked exactly once, with the server's response or an error, callbacks of successful calls come in call order, and at most one request is in flight at a time - including when the connection is lost or the session is stopped at any point.", "quantifier": "every interleaving of calls, responses, connection losses and stops", "why_tests_cant": "Needs all crash points and interleavings.", "anchors": ["ecal/service/ecal_service/src/client_session_impl_v1.cpp:eCAL::service::ClientSessionV1::async_call_service", "ecal/service/ecal_service/src/client_session_impl_v1.cpp:eCAL::service::ClientSessionV1::receive_service_response", "ecal/service/ecal_service/src/client_session_impl_v1.cpp:eCAL::service::ClientSessionV1::handle_connection_loss_error"]}
{"id": "C30", "title": "A blocking multi-server call reports one result per server", "statement": "A blocking service call returns one result per connected matching server; each is the server's own answer if it arrived before the deadline and a failure otherwise, answers arriving after the deadline change nothing, and the call reports success exactly if a server executed it.", "quantifier": "every number of servers, every subset answering in time and every arrival order", "why_tests_cant": "Combinatorial and timing-dependent.", "anchors": ["ecal/core/src/service/ecal_service_client_impl.cpp:CServiceClientImpl::CallBlocking", "ecal/core/src/service/ecal_service_client_impl.cpp:CServiceClientImpl::Call"]}
{"id": "C31", "title": "A server answers every request with its method's result", "statement": "For every request the server replies with the same service and method name; a known method is executed exactly once with exactly the request bytes and its bytes and state are returned, an unknown method or an undecodable request is answered as failed and executes nothing; the per-method call counter equals the number of executions.", "quantifier": "every request byte string and every history of method registrations", "why_tests_cant": "History-dependent and over all byte strings.", "anchors": ["ecal/core/src/service/ecal_service_server_impl.cpp:CServiceServerImpl::RequestCallback", "ecal/core/src/service/ecal_service_server_impl.cpp:CServiceServerImpl::AddMethodCallback", "ecal/core/src/service/ecal_service_server_impl.cpp:CServiceServerImpl::AddDescription"]}
{"id": "C32", "title": "Removing an event callback is safe", "statement": "After an event callback of a service client has been removed, later events of that kind are silently ignored.", "quantifier": "every history of adding and removing event callbacks and of events", "why_tests_cant": "The crash needs remove-then-event histories.", "anchors": ["ecal/core/src/service/ecal_service_client_impl.cpp:CServiceClientImpl::RemEventCallback"]}
{"id": "C33", "title": "A service client reconnects to a server that comes back", "statement": "When the connection to a server is lost while the server keeps announcing itself, the client eventually gets a usable connection again, and connect / disconnect events alternate per server without being raised while nothing changes.", "quantifier": "every history of announcements, connection losses and refresh cycles", "why_tests_cant": "Needs long histories with failures.", "anchors": ["ecal/core/src/service/ecal_service_client_impl.cpp:CServiceClientImpl::CheckForNewServices", "ecal/core/src/service/ecal_service_client_impl.cpp:CServiceClientImpl::CheckForDisconnectedServices", "ecal/core/src/service/ecal_service_client_impl.cpp:CServiceClientImpl::RegisterService"]}
{"id": "C34", "title": "Topic multicast addresses stay inside the configured group", "statement": "The multicast address computed for a topic depends only on the topic name and the configuration, keeps every network bit of the configured group, never equals the group base address used for registration, and is a valid dotted IPv4 address that parses back to itself.", "quantifier": "every topic name, every group address and every mask", "why_tests_cant": "All strings and all 2^64 address/mask pairs.", "anchors": ["ecal/core/src/io/udp/ecal_udp_topic2mcast.h"]}
{"id": "C35", "title": "Datagram framing is lossless and rejects damaged datagrams", "statement": "A sample name and payload packed into a datagram are unpacked to the same name and payload; a datagram whose length fields do not fit is rejected without reading outside of it, and later datagrams are still received.", "quantifier": "every name, payload and every arbitrary byte string received", "why_tests_cant": "All byte strings; over-reads are invisible to tests.", "anchors": ["ecal/core/src/io/udp/ecal_udp_sample_sender.cpp:CSampleSender::Send", "ecal/core/src/io/udp/ecal_udp_sample_receiver_asio.cpp:CSampleReceiverAsio::Receive"]}
{"id": "C36", "title": "A multicast group is joined exactly while some subscriber needs it", "statement": "The process is a member of a topic's multicast group exactly while it has at least one subscriber whose topic maps to that group, joining and leaving once per period, even when different topics map to the same group.", "quantifier": "every sequence of subscriber creations and destructions over any topics", "why_tests_cant": "Reference-count histories with hash collisions.", "anchors": ["ecal/core/src/readwrite/udp/ecal_reader_udp.cpp:CUDPReaderLayer::AddSubscription", "ecal/core/src/readwrite/udp/ecal_reader_udp.cpp:CUDPReaderLayer::RemSubscription"]}
{"id": "C37", "title": "Destroying one TCP subscriber leaves the others receiving", "statement": "A TCP subscriber keeps receiving as long as it exists, regardless of other subscribers to the same topic being destroyed.", "quantifier": "every sequence of subscriber creations and destructions", "why_tests_cant": "History-dependent.", "anchors": ["ecal/core/src/readwrite/tcp/ecal_reader_tcp.cpp:CTCPReaderLayer::AddSubscription", "ecal/core/src/readwrite/tcp/ecal_reader_tcp.cpp:CTCPReaderLayer::RemSubscription"]}
{"id": "C38", "title": "A TCP message frame is self-describing and aligned", "statement": "A message sent over the TCP layer is received with the same id, clock, time, hash and payload, and its payload starts at an offset that is a multiple of eight.", "quantifier": "every header content and payload below the format's size limits", "why_tests_cant": "All inputs.", "anchors": ["ecal/core/src/readwrite/tcp/ecal_writer_tcp.cpp:CDataWriterTCP::Write", "ecal/core/src/readwrite/tcp/ecal_reader_tcp.cpp:CDataReaderTCP::OnTcpMessage"]}
{"id": "C39", "title": "Payload samples survive serialization", "statement": "Every payload sample that is serialized for the network is deserialized to an equal sample, and deserializing arbitrary bytes either fails or yields a sample, without reading outside the buffer.", "quantifier": "every sample and every byte string", "why_tests_cant": "Unbounded strings and payloads.", "anchors": ["ecal/core/src/serialization/ecal_serialize_sample_payload.cpp:SerializeToBuffer", "ecal/core/src/serialization/ecal_serialize_sample_payload.cpp:DeserializeFromBuffer", "ecal/core/src/serialization/ecal_serialize_common.cpp"]}
{"id": "C40", "title": "Service requests and responses survive serialization", "statement": "Every service request and response is deserialized to an equal one.", "quantifier": "every request and response", "why_tests_cant": "Unbounded strings.", "anchors": ["ecal/core/src/serialization/ecal_serialize_service.cpp"]}
{"id": "C41", "title": "Registration samples survive serialization", "statement": "Every registration sample and sample list is deserialized to an equal one, including attribute maps and method and layer lists.", "quantifier": "every registration sample and list", "why_tests_cant": "Unbounded nested data.", "anchors": ["ecal/core/src/serialization/ecal_serialize_sample_registration.cpp"]}
{"id": "C42", "title": "Registrations reach exactly the matching publishers and subscribers", "statement": "A subscriber registration is applied to every publisher of that topic in the process and to no other; a publication registration is applied to every subscriber of that topic and no other; a destroyed publisher or subscriber receives nothing any more.", "quantifier": "every history of creations and destructions with repeated topic names and every registration", "why_tests_cant": "Histories with duplicates.", "anchors": ["ecal/core/src/pubsub/ecal_pubgate.cpp:CPubGate", "ecal/core/src/pubsub/ecal_subgate.cpp:CSubGate"]}
{"id": "C43", "title": "An incoming message reaches every subscriber of its topic", "statement": "A message received for a topic is offered to every subscriber of that topic in the process and the reported size is non-zero if any subscriber accepted it.", "quantifier": "every set of subscribers and every acceptance pattern", "why_tests_cant": "Combinatorial.", "anchors": ["ecal/core/src/pubsub/ecal_subgate.cpp:CSubGate::ApplySample"]}
{"id": "C44", "title": "Topic and service listings show exactly the live registrations", "statement": "The topic, service and type-information listings contain exactly the entries whose latest registration was neither withdrawn nor older than the timeout, with the data of the latest registration.", "quantifier": "every history of registrations, withdrawals and queries", "why_tests_cant": "History-dependent.", "anchors": ["ecal/core/src/ecal_descgate.cpp:CDescGate"]}
{"id": "C45", "title": "Malformed registration data cannot crash a process", "statement": "Whatever entity id a remote process announces, applying the registration sample neither throws nor terminates the process.", "quantifier": "every registration sample", "why_tests_cant": "Needs hostile or buggy peers.", "anchors": ["ecal/core/src/ecal_descgate.cpp:CDescGate::ApplySample"]}
{"id": "C46", "title": "Monitoring keeps different entities apart", "statement": "Two processes, topics or services that differ in host, process id, name or id occupy different monitoring entries, and the include / exclude filters admit exactly the topics the configuration selects.", "quantifier": "every pair of entities and every filter configuration", "why_tests_cant": "Collisions need particular pairs of names and ids.", "anchors": ["ecal/core/src/monitoring/ecal_monitoring_impl.cpp:CMonitoringImpl::RegisterProcess", "ecal/core/src/monitoring/ecal_monitoring_impl.cpp:CMonitoringImpl::RegisterTopic", "ecal/core/src/monitoring/ecal_monitoring_impl.cpp:CMonitoringImpl::RegisterServer"]}
{"id": "C47", "title": "Log messages go to exactly the configured sinks and are fetched once", "statement": "A log message is written to the console, the file and the network exactly if its level is enabled for that sink; each message accepted from the network is returned by exactly one fetch, in arrival order.", "quantifier": "every filter mask, level and history of log and fetch calls", "why_tests_cant": "Mask combinations and histories.", "anchors": ["ecal/core/src/logging/ecal_log_impl.cpp:CLog::Log", "ecal/core/src/logging/ecal_log_impl.cpp:CLog::GetLogging", "ecal/core/src/logging/ecal_log_impl.cpp:CLog::ApplySample"]}
{"id": "C48", "title": "Command lines round-trip", "statement": "Joining a list of arguments into a command line and splitting it again gives the same list.", "quantifier": "every list of strings", "why_tests_cant": "All strings, including quotes, backslashes and blanks.", "anchors": ["lib/ecal_utils/include/ecal_utils/ecal_utils.h:EcalUtils::CommandLine::ToCommandLine", "lib/ecal_utils/include/ecal_utils/ecal_utils.h:EcalUtils::CommandLine::ToArgv"]}
{"id": "C49", "title": "String splitting yields exactly the non-empty maximal pieces", "statement": "Splitting a string at a set of delimiters yields in order all maximal runs of non-delimiter characters, none of them empty.", "quantifier": "every string and delimiter set", "why_tests_cant": "All strings.", "anchors": ["lib/ecal_utils/include/ecal_utils/string.h:EcalUtils::String::Split"]}
{"id": "C50", "title": "Path cleaning is idempotent and never escapes the root", "statement": "Cleaning a path twice equals cleaning it once; the cleaned form of an absolute path contains no dot or dot-dot component; cleaning never changes which components a path denotes.", "quantifier": "every path string", "why_tests_cant": "All strings.", "anchors": ["lib/ecal_utils/src/filesystem.cpp:EcalUtils::Filesystem::CleanPath", "lib/ecal_utils/src/filesystem.cpp:EcalUtils::Filesystem::CleanPathComponentList"]}
{"id": "C51", "title": "Every registration handed over is sent exactly once per cycle, in order", "statement": "Each registration or withdrawal handed to the registration provider is sent exactly once, after the cyclic registrations of the same cycle and in hand-over order, and the process withdrawal is the last one sent on shutdown.", "quantifier": "every interleaving of hand-overs and send cycles", "why_tests_cant": "Interleaving-dependent.", "anchors": ["ecal/core/src/registration/ecal_registration_provider.cpp:CRegistrationProvider"]}
{"id": "C52", "title": "Processes with different registration queue sizes interoperate safely", "statement": "Processes whose registration event queues are configured with different sizes can exchange events without any of them reading or writing outside its memory.", "quantifier": "every pair of configured sizes and every history of events", "why_tests_cant": "Needs mixed configurations and particular fill levels; the failure is silent memory corruption.", "anchors": ["ecal/core/src/registration/shm/ecal_memfile_broadcast.cpp:CMemoryFileBroadcast::ReceiveEvents", "ecal/core/src/registration/shm/ecal_memfile_broadcast.cpp:CMemoryFileBroadcast::Create"]}
{"id": "C53", "title": "Registration callbacks fire for exactly the kind of entity they were set for", "statement": "A registration callback set by the user for publishers, subscribers, services, clients or processes is invoked exactly for accepted samples that announce or withdraw an entity of that kind, and always the callback set last; setting or removing a callback for an unknown event fails and changes nothing.", "quantifier": "every history of setting and removing callbacks and every sample", "why_tests_cant": "Histories and kinds combine freely.", "anchors": ["ecal/core/src/registration/ecal_registration_sample_applier_user.cpp:CSampleApplierUser::ApplySample", "ecal/core/src/registration/ecal_registration_sample_applier_user.cpp:CSampleApplierUser::AddRegistrationCallback", "ecal/core/src/registration/ecal_registration_sample_applier_user.cpp:CSampleApplierUser::RemRegistrationCallback"]}
{"id": "C54", "title": "Registrations sent over shared memory are applied exactly once by every receiver", "statement": "With registration over shared memory, every registration a process sends is applied exactly once by every running receiver, and the registrations of one process are applied in the order sent.", "quantifier": "every number of sending processes, every size, and every interleaving of sends, starts, stops and polls", "why_tests_cant": "Loss and duplication depend on how many sends fall between two polls.", "anchors": ["ecal/core/src/registration/shm/ecal_memfile_broadcast_writer.cpp:CMemoryFileBroadcastWriter::Write", "ecal/core/src/registration/shm/ecal_memfile_broadcast_reader.cpp:CMemoryFileBroadcastReader::Read", "ecal/core/src/registration/shm/ecal_registration_receiver_shm.cpp:CRegistrationReceiverSHM::Receive"]}
{"id": "C55", "title": "Messages of different publishers are never taken for duplicates of each other", "statement": "The hash a publisher attaches to a message differs from the hash of every message of every other publisher, so that a subscriber never discards a message as a copy of one from another publisher.", "quantifier": "every pair of publishers and every pair of send counters", "why_tests_cant": "Collisions need particular combinations of topic id and counter.", "anchors": ["ecal/core/src/readwrite/ecal_writer.cpp:hash<SSndHash>", "ecal/core/src/readwrite/ecal_reader.cpp:CDataReader::ApplySample"]}
{"id": "C56", "title": "An unnamed event grants exactly as many waits as it was set", "statement": "A wait on an unnamed event (also one that has just run into its timeout) succeeds exactly if there have been more sets than successful waits.", "quantifier": "every interleaving of sets and waits by any number of threads", "why_tests_cant": "Schedule-dependent, and the counter only wraps after 2^32 sets.", "anchors": ["ecal/core/src/ecal_event.cpp:CEvent"]}
{"id": "C57", "title": "Log messages and monitoring snapshots survive serialization", "statement": "Every log message, list of log messages and monitoring snapshot is deserialized to an equal one.", "quantifier": "every log message, list and snapshot", "why_tests_cant": "Unbounded nested data; the failing cases are the empty ones, which tests with meaningful content never produce.", "anchors": ["ecal/core/src/serialization/ecal_serialize_logging.cpp", "ecal/core/src/serialization/ecal_serialize_monitoring.cpp"]}
{"id": "C58", "title": "Fields of later protocol versions are ignored", "statement": "A message below 4 GiB that contains, besides the known fields, fields with unknown numbers, in any of the four wire types, between any two fields and at any nesting level, is deserialized to the same result as without them.", "quantifier": "every message and every placement of unknown fields", "why_tests_cant": "Needs messages of a version that does not exist yet.", "anchors": ["ecal/core/src/serialization/ecal_serialize_sample_payload.cpp", "ecal/core/src/serialization/ecal_serialize_sample_registration.cpp", "ecal/core/src/serialization/ecal_serialize_service.cpp", "ecal/core/src/serialization/ecal_serialize_common.cpp"]}
{"id": "C59", "title": "A server reports its first client and its last", "statement": "For each protocol version a service server raises the connected event when the number of its clients leaves zero and the disconnected event when it returns to zero: never two connected events without a disconnected event between them, and once all session threads are idle the last event tells whether there is a client.", "quantifier": "all interleavings of connecting, handshaking, failing and leaving clients with the event handling of their sessions, for both protocol versions", "why_tests_cant": "the number of sessions is read by each session on its own, without a lock over the callback, and a session still in its handshake is counted; a test sees one of the orders", "anchors": ["ecal/core/src/service/ecal_service_server_impl.cpp:CServiceServerImpl::EventCallback", "ecal/service/ecal_service/src/server_impl.cpp:get_connection_count", "ecal/service/ecal_service/src/server_session_impl_v1.cpp"]}
{"id": "C60", "title": "The best known type information is reported for topics and services", "statement": "For every topic (and every method of a service or client) the API functions report it exactly if a live registration exists, report a description no worse than any live one, and the functions that report the same thing agree.", "quantifier": "every history of registrations and every topic or method name", "why_tests_cant": "Ties and mixed qualities need particular combinations of peers.", "anchors": ["ecal/core/src/ecal_util.cpp:GetTopicDataTypeInformation", "ecal/core/src/ecal_util.cpp:ReduceQualityTopicIdMap", "ecal/core/src/ecal_util.cpp:GetHighestQualityServiceMethodInformation", "ecal/core/src/ecal_util.cpp:ReduceQualityServiceIdMap"]}
{"id": "C61", "title": "The log file holds exactly the enabled messages, one line each", "statement": "After a start that opens the log file, the file consists of one line per message whose level is enabled for the file, in the order of the calls; a line determines time, host, unit, process, level and text of its message; processes never share a file; no message written before is lost.", "quantifier": "every history of log calls, levels, texts and times", "why_tests_cant": "Texts and histories are unbounded; whether a line can be mistaken for another is a statement about all pairs.", "anchors": ["ecal/core/src/logging/ecal_log_impl.cpp:CLog::Log", "ecal/core/src/logging/ecal_log_impl.cpp:CLog::Start"]}
{"id": "C62", "title": "Log filters of the configuration survive being written and read", "statement": "A list of level names sets exactly the bits of its names; the filter written to the default configuration file, or converted to YAML, is read back as the same filter.", "quantifier": "every list of words and every filter mask", "why_tests_cant": "Lists are unbounded; 256 masks times three sinks in two encoders.", "anchors": ["ecal/core/src/config/configuration_to_yaml.cpp:ParseLogLevel", "ecal/core/src/config/configuration_to_yaml.cpp:LogLevelToVector", "ecal/core/src/config/default_configuration.cpp:logToArray"]}
{"id": "C63", "title": "String helpers do exactly what their names say", "statement": "Replacing substitutes the occurrences of the pattern from the left, each once, and keeps everything else; trimming removes exactly the blanks at both ends; escaping for HTML leaves none of the special characters and loses nothing; centring keeps the string and reaches the wanted length.", "quantifier": "every string, pattern, replacement, fill character and length", "why_tests_cant": "All strings; overlapping occurrences, empty patterns and strings of blanks only.", "anchors": ["lib/ecal_utils/include/ecal_utils/string.h:EcalUtils::String::Replace", "lib/ecal_utils/include/ecal_utils/string.h:EcalUtils::String::Trim", "lib/ecal_utils/include/ecal_utils/string.h:EcalUtils::String::htmlEscape", "lib/ecal_utils/include/ecal_utils/string.h:EcalUtils::String::CenterString"]}
{"id": "C64", "title": "Quoted strings round-trip", "statement": "Parts written in quotes, with quotes and escape characters escaped, and separated by blanks are read back as the same list of parts.", "quantifier": "every list of strings and escape character", "why_tests_cant": "All strings, in particular empty ones and ones consisting of quotes and escape characters.", "anchors": ["lib/ecal_utils/include/ecal_utils/string.h:EcalUtils::String::SplitQuotedString"]}
{"id": "C65", "title": "Expanding environment variables replaces exactly the variables", "statement": "In a text of plain parts, escaped dollar signs and variables in one of the three notations each known variable is replaced by its value, unknown variables and all other text are kept; values are not expanded again.", "quantifier": "every text and environment", "why_tests_cant": "All texts and environments, in particular unset variables, values with dollar signs and incomplete notations.", "anchors": ["lib/ecal_utils/include/ecal_utils/ecal_utils.h:EcalUtils::Filesystem::ExpandEnvVars"]}
{"id": "C66", "title": "Path queries agree with what the paths denote", "statement": "The absolute form of a relative path denotes what the path denotes in the base directory; two paths compare equal exactly if they denote the same place from the working directory; the file name of a path is its last component.", "quantifier": "every path, base directory and working directory", "why_tests_cant": "All strings and directories, in particular the root directory and repeated separators.", "anchors": ["lib/ecal_utils/src/filesystem.cpp:EcalUtils::Filesystem::AbsolutePath", "lib/ecal_utils/src/filesystem.cpp:EcalUtils::Filesystem::IsEqual", "lib/ecal_utils/src/filesystem.cpp:EcalUtils::Filesystem::FileName", "lib/ecal_utils/src/filesystem.cpp:EcalUtils::Filesystem::GetAbsoluteRoot"]}
{"id": "C67", "title": "The relative path leads from the base to the path", "statement": "Following the relative path from the base directory arrives at the path it was computed for.", "quantifier": "every pair of absolute paths", "why_tests_cant": "All pairs of paths, including equal ones and ones in which one lies below the other.", "anchors": ["lib/ecal_utils/src/filesystem.cpp:EcalUtils::Filesystem::RelativePath", "lib/ecal_utils/include/ecal_utils/ecal_utils.h:EcalUtils::Filesystem::GetRelativePath"]}
{"id": "C68", "title": "Creating a path creates exactly the missing directories", "statement": "Creating a path makes every missing directory on the way, changes nothing else and reports success exactly if the path is a directory afterwards.", "quantifier": "every file system without symbolic links and every absolute path", "why_tests_cant": "All file systems and paths, in particular files in the way.", "anchors": ["lib/ecal_utils/src/filesystem.cpp:EcalUtils::Filesystem::MkPath", "lib/ecal_utils/src/filesystem.cpp:EcalUtils::Filesystem::MkDir", "lib/ecal_utils/src/filesystem.cpp:EcalUtils::Filesystem::IsDir"]}
{"id": "C69", "title": "Every component lives in the right order", "statement": "Whatever sequence of Initialize and Finalize calls is made, every component is created, started, stopped and destroyed in this order, and is started and stopped only while the components it calls are up; the service manager is stopped before the service gates and the description gate is unhooked before the receiver stops.", "quantifier": "every sequence of API calls and component masks", "why_tests_cant": "All call sequences; the order of construction and destruction of twelve singletons with partial initialization cannot be enumerated by tests and mistakes show up only as rare crashes at shutdown.", "anchors": ["ecal/core/src/ecal_globals.cpp:eCAL::CGlobals::Initialize", "ecal/core/src/ecal_globals.cpp:eCAL::CGlobals::Finalize"]}
{"id": "C70", "title": "Initialize and Finalize are counted", "statement": "eCAL is initialized exactly while more Initialize than Finalize calls were made; a component is initialized exactly if some Initialize since the last complete shutdown asked for it; Initialize says whether something new was created; no call dereferences a missing component.", "quantifier": "every sequence of API calls and component masks", "why_tests_cant": "All call sequences, in particular unbalanced ones, repeated ones with different masks, and calls before and after.", "anchors": ["ecal/core/src/ecal.cpp:eCAL::Initialize", "ecal/core/src/ecal.cpp:eCAL::Finalize", "ecal/core/src/ecal.cpp:eCAL::IsInitialized", "ecal/core/src/ecal_globals.cpp:eCAL::CGlobals::IsInitialized", "ecal/core/src/ecal_global_accessors.cpp:eCAL::InitGlobals", "ecal/core/src/pubsub/ecal_publisher.cpp:eCAL::CPublisher::Create"]}
{"id": "C71", "title": "Ok reports the process state", "statement": "Ok returns true exactly while eCAL is initialized and no other process has asked this one to shut down.", "quantifier": "every sequence of API calls and shutdown requests", "why_tests_cant": "All interleavings of requests and calls, in particular several calls after one request.", "anchors": ["ecal/core/src/ecal.cpp:eCAL::Ok", "ecal/core/src/ecal_util.cpp:eCAL::Util::ShutdownProcess"]}
{"id": "C72", "title": "Callback threads lose no trigger and are quiet after stop", "statement": "For every interleaving of the threads using a CCallbackThread: a trigger is followed by a run of the callback that began after it, triggers are merged but never multiplied, once stop has set its flag no run begins, when stop has returned no run is in progress or will begin, and a pending stop can always be completed. It never takes the process down if it is started once, not stopped from its own callback and not stopped by two threads at once; each of these three is shown to be necessary, and a thread started again after a stop never runs its callback.", "quantifier": "all interleavings of start, trigger, stop and the worker", "why_tests_cant": "Lost wake-ups and late callbacks depend on a few instructions' worth of timing.", "anchors": ["ecal/core/src/util/ecal_thread.h: CCallbackThread::start, stop, trigger, callbackFunction"]}
{"id": "C73", "title": "Timers do not drift", "statement": "The time asked for by the rounds of a timer adds up to the number of rounds times the period plus the present error, whatever the callbacks and sleeps took; as long as callbacks are shorter than the period and sleeps late by at most delta, that error stays between 0 and delta. After being late by k periods (a long callback, a clock set forward) the next k callbacks run without pause.", "quantifier": "all periods, all clock readings, all numbers of rounds", "why_tests_cant": "Drift shows after hours; clock steps are not produced by tests.", "anchors": ["ecal/core/src/time/ecal_timer.cpp: CTimerImpl::Thread"]}
{"id": "C74", "title": "Reported frequencies were measured", "statement": "For ticks at increasing times every frequency reported for a publisher or subscriber is zero or the number of ticks in a stretch that really happened divided by its length; at a constant rate it is exactly that rate; after the last tick the value is kept for three periods and is zero afterwards; while ticks arrive between the queries only the first query may give zero. Two ticks at the same clock reading give the largest double, whose conversion to the registered 32 bit millihertz is undefined, as it is above 2.147 MHz.", "quantifier": "all sequences of ticks and queries, all times", "why_tests_cant": "Requires chosen clock readings, among them equal ones.", "anchors": ["ecal/core/src/util/frequency_calculator.h: FrequencyCalculator, ResettableFrequencyCalculator", "ecal/core/src/readwrite/ecal_writer.cpp: CDataWriter::GetFrequency", "ecal/core/src/readwrite/ecal_reader.cpp: CDataReader::GetFrequency"]}
{"id": "C75", "title": "Session tables stay exact although addresses are reused", "statement": "For every interleaving of creations, releases, deleters and stops of a ClientManager or ServerManager: the table lists exactly the sessions that are alive or being deleted, each under its own address; the count is their number; when a stop has gone through its copy no live session runs; no session is created after the stop has set its flag.", "quantifier": "all interleavings, all addresses handed out again by the allocator", "why_tests_cant": "Address reuse between delete and erase depends on allocator and timing.", "anchors": ["ecal/service/ecal_service/src/client_manager.cpp: ClientManager::create_client, stop, client_count", "ecal/service/ecal_service/src/server_manager.cpp: ServerManager::create_server, stop", "ecal/service/ecal_service/src/client_session.cpp: ClientSession::create"]}
{"id": "C76", "title": "Stopping the services ends everything", "statement": "Once ServiceManager::stop has returned there is no manager, no io thread and no running session, and none comes into being before the next reset. A stop can be completed exactly if no io thread is inside get_client_manager, get_server_manager or stop; otherwise (a method that calls a service during Finalize) it hangs for ever holding the mutex.", "quantifier": "all interleavings of any number of threads", "why_tests_cant": "The deadlock needs a method to be between two instructions when the stop begins.", "anchors": ["ecal/core/src/service/ecal_service_singleton_manager.cpp: ServiceManager::get_client_manager, get_server_manager, stop, reset"]}
{"id": "C77", "title": "No session outlives the stop of its server", "statement": "After ServerImpl::stop the only session that may run is one whose connection was accepted but not yet handled when the acceptor was closed; such a session is started after the stop and runs until its client leaves.", "quantifier": "all interleavings of connections, handlers, breaks and stop", "why_tests_cant": "The window lies between two handlers of the io threads.", "anchors": ["ecal/service/ecal_service/src/server_impl.cpp: ServerImpl::wait_for_next_client, ServerImpl::stop"]}
{"id": "C78", "title": "Methods may call services", "statement": "As long as fewer requests than io threads are unfinished, methods that make blocking calls all come to their end; four such methods at once occupy all io threads, and no answer is ever handled again.", "quantifier": "all arrival orders of requests and answers", "why_tests_cant": "Needs exactly as many simultaneous nested calls as there are threads.", "anchors": ["ecal/core/src/service/ecal_service_singleton_manager.cpp: ServiceManager::num_io_threads", "ecal/core/src/service/ecal_service_client_impl.cpp: CServiceClientImpl::CallBlocking"]}
{"id": "C79", "title": "Time synchronisation asks the right module and no null pointer", "statement": "With plugins that provide all functions no sequence of starts, stops and questions to the time gate calls a null pointer; while it is started it answers with the time of the module it was started with (0 if that could not be initialised, 0 before the start and after the stop); in one mode every successful initialisation of a module is finalised by the stop. A module that lacks a function is called nevertheless; a second module name is ignored after a restart; after a change of mode the other module is initialised and never finalised; as built, the time functions ignore the plugin altogether.", "quantifier": "all sequences of operations, all modules", "why_tests_cant": "Incomplete plugins and changes of mode do not occur in tests; the macro that guards the time functions is never defined.", "anchors": ["ecal/core/src/time/ecal_timegate.cpp: CTimeGate::Start, Stop, GetNanoSeconds, IsSynchronized, GetStatus, LoadModule", "ecal/core/src/time/ecal_time.cpp: eCAL::Time::GetNanoSeconds, SleepForNanoseconds", "ecal/core/src/registration/ecal_process_registration.cpp: GetProcessRegisterSample"]}
{"id": "C80", "title": "Reading a configuration document sets what it says and nothing else", "statement": "After a document has been read, each of the plain settings has the value that stands at its path; if nothing stands there, it has its default value if the document contains its section and its previous value otherwise. The priorities of a publisher are emptied and the filter of a log sink is cleared instead; the documented key for dropping messages out of order is never read; a document that is refused has replaced some sections already.", "quantifier": "all documents and previous configurations, every sound conversion of scalars", "why_tests_cant": "Some fifty settings times present, absent and section absent; tests read one file.", "anchors": ["ecal/core/src/config/configuration_to_yaml.cpp: YAML::convert<...>::decode, AssignValue", "ecal/core/src/config/configuration_reader.cpp: MapConfiguration"]}
{"id": "C81", "title": "Writing a configuration as a document and reading it back", "statement": "The settings outside the transport layer and the registration layer and the publisher priorities are the same after encoding and decoding. The transport layer and the registration layer are not written, the drop flag is written under a key that is not read, log filters become wider, layers other than the three disappear.", "quantifier": "all configurations with values in range, all previous configurations", "why_tests_cant": "Needs every setting at a value other than its default.", "anchors": ["ecal/core/src/config/configuration_to_yaml.cpp: YAML::convert<...>::encode, transformLayerEnumToStr, transformLayerStrToEnum"]}
{"id": "C82", "title": "The commented configuration file describes the configuration", "statement": "The file written for a configuration whose texts contain no quote, backslash or line end can be read, and every setting but two comes back. The enabling of TCP publishers is written as that of shared memory, the drop flag is not read; a backslash in a regular expression makes the file unreadable; a list of unknown layers only is undefined behaviour.", "quantifier": "all configurations with values in range", "why_tests_cant": "The tests write the default configuration only.", "anchors": ["ecal/core/src/config/default_configuration.cpp: getConfigAsYamlSS, quoteString"]}
{"id": "C83", "title": "Merging two documents", "statement": "After merging, at every path where the second document has a value that is not a map the result has that value; where the second document has nothing, and nothing but maps on the way, the result has what the first one had.", "quantifier": "all pairs of documents without repeated keys, all paths", "why_tests_cant": "Documents nest arbitrarily.", "anchors": ["ecal/core/src/config/configuration_reader.cpp: MergeYamlNodes"]}
{"id": "C84", "title": "Merging a file into a configuration changes only what the file mentions", "statement": "Every setting outside the transport layer and the registration layer that the file has is taken from it, every other one keeps its value; the transport layer keeps all values if the file does not mention it. If it mentions one, the others become the defaults; the registration layer and the drop flag always become the defaults and the log filters become wider.", "quantifier": "all configurations with values in range and all files without repeated keys", "why_tests_cant": "Needs a configuration other than the default and a file that mentions part of a section.", "anchors": ["ecal/core/src/config/configuration_reader.cpp: MergeYamlIntoConfiguration"]}
{"id": "C85", "title": "Constrained integers and addresses accept exactly their values", "statement": "A constrained integer accepts exactly the multiples of its step in its range. An accepted address consists of four numbers up to 255 in decimal or hexadecimal digits, and read in either way it is not 255.255.255.255, 127.0.0.1 or 0.0.0.0; every other address in decimal digits is accepted and read as the same number by the multicast code. Hexadecimal ones are accepted but read as other addresses.", "quantifier": "all strings, all integers, all addresses", "why_tests_cant": "There are 2^32 addresses and unboundedly many strings.", "anchors": ["ecal/core/include/ecal/types/ecal_custom_data_types.h: ConstrainedInteger", "ecal/core/src/types/ecal_custom_data_types.cpp: IpAddressV4::validateIpString", "ecal/core/src/io/udp/ecal_udp_topic2mcast.h: V2::parse_ipv4"]}
{"id": "C86", "title": "The configuration file that is loaded", "statement": "The file that is loaded is the first one that exists among: below the working directory, below ECAL_DATA, below the installed directory, below /etc/ecal, the given path; if none exists none is loaded. A path from the root has no precedence; GeteCALConfigPath answers with the empty string, as for nothing found, when a file lies in the working directory and ECAL_DATA is not set, although one exists in /etc/ecal.", "quantifier": "all file systems, environments and file names", "why_tests_cant": "Tests run in one environment.", "anchors": ["ecal/core/src/config/ecal_config_initializer.cpp: checkForValidConfigFilePath, findValidConfigPath, getEcalDefaultPaths, GeteCALConfigPath"]}
{"id": "C87", "title": "Type names with an encoding", "statement": "Splitting a combined name gives back encoding and type exactly if the encoding has no colon and, should it be empty, the type has none; combining the parts of a name gives it back exactly if it does not begin with a colon.", "quantifier": "all strings", "why_tests_cant": "The exact condition is about all strings.", "anchors": ["ecal/core/src/ecal_util.cpp: SplitCombinedTopicType, CombinedTopicEncodingAndType"]}
{"id": "C88", "title": "Copying results into memory of a C caller", "statement": "A result of less than 2 GiB is copied completely into a buffer that is at least as long as announced, or nothing is written and 0 returned; when the library allocates, the result is in a new block, the caller gets its address, nothing else changes and no block is left behind on failure. An announced length of 0 writes eight bytes of address into the buffer; results from 2 GiB on overrun every buffer.", "quantifier": "all texts, buffers, lengths, memory contents and malloc outcomes", "why_tests_cant": "Needs buffers of every length and texts of more than 2 GiB.", "anchors": ["ecal/core/src/cimpl/ecal_common_cimpl.cpp: CopyBuffer", "ecal/core/src/cimpl/ecal_subscriber_cimpl.cpp: eCAL_Sub_GetTypeName", "ecal/core/src/cimpl/ecal_process_cimpl.cpp: eCAL_Process_GetHostName"]}
{"id": "C89", "title": "Receiving and calling through the C interface", "statement": "A waiting message that fits is handed over completely; eCAL_Sub_Receive_Buffer_Alloc returns 1 exactly if there was a message. A message that does not fit is lost and reported as 0 like no message; without memory success and the length are reported and the pointer is left unset; an empty response is reported like a failed call.", "quantifier": "all messages, buffers and malloc outcomes", "why_tests_cant": "Failing allocation does not happen in tests.", "anchors": ["ecal/core/src/cimpl/ecal_subscriber_cimpl.cpp: eCAL_Sub_Receive_ToBuffer, eCAL_Sub_Receive_Alloc, eCAL_Sub_Receive_Buffer_Alloc", "ecal/core/src/cimpl/ecal_client_cimpl.cpp: eCAL_Client_Call_Wait"]}
{"id": "C90", "title": "Lengths, ids and responses handed over by a C caller", "statement": "eCAL_Pub_Send returns the length exactly if that many bytes were sent; a filter gets the first n ids; the response of a method is the bytes it points to. Negative lengths become nearly 2^64, with no subscriber they are returned as success; a count outside of the array or a response length outside of the block reads outside; every allocated response stays in memory.", "quantifier": "all lengths, arrays, blocks and sequences of calls", "why_tests_cant": "Reading outside an array usually goes unnoticed.", "anchors": ["ecal/core/src/cimpl/ecal_publisher_cimpl.cpp: eCAL_Pub_Send", "ecal/core/src/cimpl/ecal_subscriber_cimpl.cpp: eCAL_Sub_SetID", "ecal/core/src/cimpl/ecal_server_cimpl.cpp: g_method_callback"]}
{"id": "C91", "title": "C callbacks of one sort never overlap", "statement": "At any time at most one thread is in a callback of one sort, a buffer shared by the callbacks therefore keeps what a thread wrote until that thread goes on; another thread can enter exactly when nobody else is inside. A callback that waits for another thread's callback blocks for ever.", "quantifier": "all interleavings of any number of threads, with nested callbacks", "why_tests_cant": "Concerns all interleavings.", "anchors": ["ecal/core/src/cimpl/ecal_subscriber_cimpl.cpp: g_sub_receive_callback", "ecal/core/src/cimpl/ecal_server_cimpl.cpp: g_method_callback", "ecal/core/src/cimpl/ecal_timer_cimpl.cpp: g_timer_callback"]}
{"id": "C92", "title": "The callback of a typed subscriber", "statement": "Through creation, adding and removing callbacks, moving, assigning and destroying typed subscribers, each message of a subscription is decoded and given once to the callback of the object holding the subscription, or waits for Receive when that object has no callback; no member function runs on a destroyed object at whatever moment messages arrive. Exceptions: the deprecated CMsgSubscriber is called during destruction, messages inside a move constructor are lost, a refused callback becomes active after Create and move, self-assignment ends the subscription.", "quantifier": "all programs over any number of objects and subscriptions, all decoders, messages at any time", "why_tests_cant": "The dangerous moments lie inside constructors and destructors.", "anchors": ["ecal/core/include/ecal/msg/subscriber.h: CMsgSubscriber, CMessageSubscriber", "ecal/core/src/pubsub/ecal_subscriber.cpp: CSubscriber"]}
{"id": "C93", "title": "Type information of dynamic subscribers", "statement": "A message is decoded with the type information taken over first, which stays until the object is destroyed or moved or assigned to; before any is known the error callback is called. Exceptions: a type that changes later is not noticed, the error callback does not move with the object, an object given another topic keeps asking for the first.", "quantifier": "all programs, states, decoders and messages", "why_tests_cant": "Depends on the order of registration and data over the whole life of the object.", "anchors": ["ecal/core/include/ecal/msg/dynamic.h: CDynamicMessageSubscriber, PopulateDatatypeInfo"]}
{"id": "C94", "title": "Typed publishers write the serialization", "statement": "While subscribers do not change during a send, exactly the serialization of each message is written, in order and independent of what earlier messages left in the buffer, and messages without subscriber are only counted; a string is read back as sent; a failed serialization is neither written nor counted. A subscriber appearing during the send gets an empty message; a serializer writing less than announced publishes remains of earlier messages.", "quantifier": "all message types, serializers and sequences of messages", "why_tests_cant": "The window between the two subscription checks is hit by chance only.", "anchors": ["ecal/core/include/ecal/msg/publisher.h: CMessagePublisher::Send, CMsgPublisher::Send", "ecal/core/include/ecal/msg/string/publisher.h: CPublisher", "ecal/core/include/ecal/msg/string/subscriber.h: CSubscriber"]}
{"id": "C95", "title": "Protobuf servers", "statement": "A request for a method of the service is parsed and answered by the service of the last creation, with -1 if it cannot be parsed or after Destroy; other methods are refused. Destroy leaves the server on the network; a request during destruction uses destroyed members; a second creation with another service type calls methods of the first on the second.", "quantifier": "all services, histories and requests", "why_tests_cant": "Needs requests between two destructors and several creations.", "anchors": ["ecal/core/include/ecal/msg/protobuf/server.h: CServiceServer::Create, Destroy, RequestCallback"]}
{"id": "C96", "title": "A message on its whole way from send to callback", "statement": "For any publishers of names and messages of ordinary size (topic name without zero byte, names not empty and together at most 65000 bytes, payloads below 2 GiB, fewer than 2^63 sends), any sends, subscriptions and id changes of them, and packets of their UDP, TCP and shared memory layers arriving at a subscriber of another process in any order, lost and repeated: every message given to the receive callback, and the bytes and time returned by a receive call, are those of one send of a publisher of the topic, with its payload, id, time and number. With dropping of out-of-order messages on, the callback sees the sends of each publisher in their order and none twice. With one publisher of the topic, packets of other topics in between and all layers enabled, a message is delivered exactly if neither it nor a later one has arrived before; so if the sends arrive in order, each at least once over whatever layer, all are delivered, each once. Everything handed to the UDP and TCP layers becomes such a packet.", "quantifier": "all publishers, all sequences of calls, all interleavings, losses, repetitions and orders of packets over the three layers, all subscriber calls", "why_tests_cant": "tests send a few messages over one layer at a time and compare counts; duplicates and reorderings between layers depend on timing", "anchors": ["ecal/core/src/readwrite/ecal_writer.cpp: CDataWriter::Write", "ecal/core/src/readwrite/udp/ecal_writer_udp.cpp: CDataWriterUdpMC::Write", "ecal/core/src/readwrite/tcp/ecal_writer_tcp.cpp: CDataWriterTCP::Write", "ecal/core/src/readwrite/shm/ecal_writer_shm.cpp: CDataWriterSHM::Write", "ecal/core/src/readwrite/ecal_reader.cpp: CDataReader::ApplySample", "ecal/core/src/pubsub/ecal_subgate.cpp: CSubGate::ApplySample"]}
{"id": "C97", "title": "A service call on its whole way to the method and back", "statement": "A client session, its connection and a service server put together, with the bytes of the connection read in pieces of any size, further sessions calling the same server, connection losses and stops at any time: each accepted call is written at most once and handed to the server at most once, in the order of writing and with exactly its bytes. The bytes handed to a response callback are the server's answer to exactly this call: the result of the one execution of the method, by the callback the method had when the request arrived, or the message that the server has no such method. No call between client and server of this version ends with a protocol error. As long as nothing is lost, an awaited call can be answered: there are steps without a failure, another call or a change of the methods that bring its answer to the caller.", "quantifier": "all runs of client and server, all splittings of the byte streams, all interleavings with other sessions, all losses, requests and answers below 4 GiB", "why_tests_cant": "tests call a local server over an undisturbed loopback connection; losses between the bytes of a frame and other sessions' calls in between are not produced", "anchors": ["ecal/service/ecal_service/src/client_session_impl_v1.cpp: ClientSessionV1::send_next_service_request, receive_service_response", "ecal/service/ecal_service/src/server_session_impl_v1.cpp: ServerSessionV1::receive_service_request, send_service_response", "ecal/service/ecal_service/src/protocol_v1.cpp: async_send_payload, async_receive_payload", "ecal/core/src/service/ecal_service_server_impl.cpp: CServiceServerImpl::RequestCallback", "ecal/core/src/service/ecal_service_client_impl.cpp: CServiceClientImpl::CallBlocking"]}
{"id": "C98", "title": "What a message filter contains and accepts", "statement": "After any insertions and clearings of paths a filter contains exactly the beginnings of the paths inserted (and, for each step with an index, the step's own name without it); erasing a path whose pieces are present is defined, takes away pieces of this path only and none another element goes on from; a name with one index is accepted if it was inserted, or inserted with a star and nothing was inserted for this index. Exceptions: the piece before an index further inside is put in without what precedes it; erasing a path that is not there is undefined; erasing takes away a field that was inserted for itself, or leaves it in because another name begins with the same letters; names with a second index and a field behind it are rejected; a star is hidden by any insertion for the same index.", "quantifier": "all paths, all sequences of insertions, erasures and clearings, all names asked for", "why_tests_cant": "The exceptions depend on combinations of names, indices and the order of insertions; the code has no tests for them.", "anchors": ["ecal/msg/protobuf/src/ecal_proto_message_filter.cpp: CreateSet, BaseIncludeFilter::Insert, BaseIncludeFilter::Erase, SimpleIncludeFilter::Filter, ComplexIncludeFilter::Filter"]}
{"id": "C99", "title": "The protobuf decoder visits the accepted values once and in order", "statement": "Walking through any message, the visitor is given exactly the scalar values whose path it accepts, in the order of the message, each under the name of its path and none twice; messages and arrays are opened and closed in turn; the dimensions visitor knows the largest size of each array over all messages seen. With the include filter the values at the inserted paths are visited, except below an index further inside, where nothing is.", "quantifier": "all messages of any depth, all acceptance functions, all names", "why_tests_cant": "Messages are trees of unbounded depth; tests decode a few fixed types.", "anchors": ["ecal/msg/protobuf/src/ecal_proto_decoder.cpp: CProtoDecoder::ProcProtoMsg", "ecal/msg/protobuf/src/ecal_proto_maximum_array_dimensions.cpp: MaximumArrayDimensionsVisitor", "ecal/msg/protobuf/include/ecal/msg/protobuf/ecal_proto_visitor.h: MessageVisitor"]}
{"id": "C100", "title": "The descriptor set of a protobuf type", "statement": "The collection of the file descriptors ends for every message type with one result; no file is in it twice, only files the type's file imports, directly or not; if each imported file has a message type, or an enum or service and no imports, all of them are in it, each after those it imports, the type's own last. Exceptions: files which only import others are left out, imports of files with services or enums only come too late, and the number of calls is exponential in the depth of the imports.", "quantifier": "all sets of files and message types with acyclic imports, recursive message types included", "why_tests_cant": "Depends on the shape of the import graph.", "anchors": ["ecal/msg/protobuf/include/ecal/msg/protobuf/ecal_proto_hlp.h: GetFileDescriptor, HasFile"]}
{"id": "C101", "title": "The dynamic protobuf decoder finds the type described", "statement": "From an orderly set of files (each after its imports, no name twice) a fresh decoder makes a message of the type asked for when this is at top level of the last file and no earlier file begins with a type of the same short name; in particular from the description a publisher makes (C100). A type once found for a type information stays. Exceptions: a same-named first type of an imported file is taken instead; nested types are not found; a changed file is never used in its new form; a second text is refused; the types of a service whose file has imports get no description.", "quantifier": "all sets of files, all sequences of type informations, both evaluation orders of the assignment (C++17 fixes one, with which no null pointer is used)", "why_tests_cant": "Needs combinations of packages, imports and changing descriptors; the evaluation order is a matter of the language version.", "anchors": ["ecal/msg/protobuf/src/ecal_proto_dyn.cpp: CProtoDynDecoder::GetProtoMessageFromDescriptorSet, GetProtoMessageFromString, GetServiceMessageDescFromType", "ecal/core/include/ecal/msg/protobuf/dynamic_subscriber.h: ProtobufDynamicDeserializer"]}
{"id": "C102", "title": "Publishers and subscribers of different processes find each other", "statement": "Over UDP registrations below 4 GiB that may be lost, duplicated and reordered: everything listed as connected is or was a real object of the same topic in a process that is listened to, with the data type and layers it announced, and a subscriber lists a publisher only after that publisher listed a subscriber on its side; every registration cycle announces every object; a delivered announcement is listed and stays listed within the timeout; who is silent for the timeout is forgotten; a delivered withdrawal removes at once; one cycle on either side with delivered datagrams connects a pair. Exceptions: an old datagram after a withdrawal lists the object again; a subscriber takes another's connection on its side for its own; members of a host group with equal process ids on different hosts ignore each other.", "quantifier": "all histories of processes, objects, cycles and deliveries, any number of processes", "why_tests_cant": "Needs several hosts and a network that loses, repeats and reorders datagrams at chosen moments.", "anchors": ["ecal/core/src/registration/ecal_registration_provider.cpp: CRegistrationProvider::RegisterSendThread", "ecal/core/src/registration/udp/ecal_registration_receiver_udp.cpp: CRegistrationReceiverUDP", "ecal/core/src/readwrite/ecal_writer.cpp: CDataWriter::GetRegistrationSample, ApplySubscription, CheckConnections", "ecal/core/src/readwrite/ecal_reader.cpp: CDataReader::ApplyPublication, CheckConnections"]}
{"id": "C103", "title": "API objects through Initialize and Finalize", "statement": "Publishers, subscribers, servers and clients are created, moved, destroyed and deleted in any order while eCAL is initialized and finalized any number of times. An operation is undefined only if eCAL's own call is, or a publisher or subscriber is created without its component. The registration thread never meets an object that no longer exists; what it announces exists, runs and is stood for by exactly one object; a successful Create under an initialized component is announced and stays so until its own object is destroyed, deleted or assigned to, or eCAL ends; running publishers and subscribers are announced; what was announced and is not any more has been withdrawn, once, and the last Finalize withdraws everything while it still can. Exceptions: a server or client created before Initialize is never announced; an object that outlives Finalize says it is created but is dead; a server's Create returns true although it did not start; a client without a name is announced but never withdrawn.", "quantifier": "all sequences of operations on any number of objects of all four kinds, interleaved with Initialize, Finalize and the other calls of the life cycle", "why_tests_cant": "The interleavings of object lifetimes with Initialize/Finalize are unbounded; dangling entries show only if the registration thread happens to look.", "anchors": ["ecal/core/src/pubsub/ecal_publisher.cpp: CPublisher::Create, Destroy, operator=", "ecal/core/src/pubsub/ecal_subscriber.cpp: CSubscriber::Create, Destroy", "ecal/core/src/pubsub/ecal_pubgate.cpp: CPubGate::Stop, Register, Unregister", "ecal/core/src/service/ecal_service_server.cpp: CServiceServer::Create, Destroy", "ecal/core/src/service/ecal_service_client.cpp: CServiceClient::Create, Destroy", "ecal/core/src/service/ecal_clientgate.cpp: CClientGate::Stop, GetRegistrations", "ecal/core/src/service/ecal_servicegate.cpp: CServiceGate::Stop, GetRegistrations"]}
{"id": "C104", "title": "Starting another program", "statement": "StartProcess on Linux forks twice, learns the program's process id through a FIFO and the outcome of execvp through a locked file; with a terminal emulator the program ecal_process_stub, started by that, does the grandchild's part. For every interleaving of caller and grandchild and every combination of failing system calls: it returns after boundedly many steps and never deadlocks; if the lock file could be made and no signal interrupts it, a returned process id belongs to a program that was loaded; if nothing fails and the five seconds suffice, the process id is returned; afterwards neither FIFO nor lock file exists by name and the grandchild is not stuck. A terminal emulator that cannot be executed is noticed at once, and one that executes what follows its own arguments makes the stub execute the same arguments as without it. A process reports its own arguments as a command line that splits into them again. Exceptions: without the lock file, or if a signal interrupts the wait for it, a failed execvp is reported as success; after the five seconds, or without the FIFO, 0 is returned although the program starts, the lock file stays, and the grandchild can hang for ever; a blocking start does not wait; a failed fork leaves the FIFO; a failed chdir or second fork, or a terminal emulator that does not start the stub, costs the five seconds.", "quantifier": "all schedules of caller, grandchild, timeout, signals and the program's end, of any length; all combinations of failing calls; all argument vectors", "why_tests_cant": "The races between two processes, a FIFO, a lock and a timeout cannot be forced by a test, and failing mkfifo, fork or open cannot be arranged.", "anchors": ["ecal/core/src/ecal_process.cpp: StartProcess, GetProcessParameter, getTerminalEmulatorCommand", "ecal/core/src/ecal_process_stub.cpp: main"]}
{"id": "C105", "title": "Sleeping in simulation time", "statement": "CDynamicSleeper lets threads sleep in a time that runs at a settable rate. Setting the rate does not make the time jump, setting the time makes it what was set. A thread that finds the time over comes back at or after its target; one whose waiting time is over comes back when the target is reached but for the rounding; alone it sleeps exactly as long as the rate says; nobody sleeps beyond the limit computed when the waiting began; a thread waiting when the time is set back comes back. Exceptions: a change between copying the settings and waiting is lost, so the thread comes back long before the target or sleeps for ever; so is one noticed late; two callers of setRate in the wrong order make the time go back and sleeping threads return although nobody set the time; a time set back and forth is not noticed.", "quantifier": "all histories of clock, setters, sleeping threads and spurious wake-ups, all rates", "why_tests_cant": "The windows are a few instructions wide.", "anchors": ["contrib/ecaltime/include/dynamic_sleeper.h: CDynamicSleeper::sleepUntil, sleepFor, setRate, setTime, setTimeAndRate"]}
{"id": "C106", "title": "What a process says of itself", "statement": "A process says the id it had when it first asked for it: its own, unless it was forked afterwards, in which case it speaks with its parent's id for ever. Host name, process name and parameter line are what the operating system said first and stay that way. Every registration tells the severity, level and text set last and the components started; an unregistration names the same host, id and name, hence the same key of the monitoring. The parameter line reads back as the arguments, the component text as the components among publisher, subscriber, logging and time. The unit has the name given last or, if started with an empty name, the last part of its executable's path. Not so: threads asking for the id as text at once can get nothing; a unit started without a name stays nameless; task parameters are never stored; services and monitoring are never named; an argument with a tab is read back as two.", "quantifier": "all histories of calls, forks and changes of the operating system's answers; all arguments; all interleavings of any number of threads asking for the id", "why_tests_cant": "Tests run in one process with one name; they never fork after initialising, race for the id, or give null and empty names in turn.", "anchors": ["ecal/core/src/ecal_process.cpp: GetProcessID, GetProcessIDAsString, create_proc_id, GetProcessName, GetProcessParameter, GetHostName, GetHostGroupName, GetTaskParameter, SetState, GetBufferStr", "ecal/core/src/ecal_global_accessors.cpp: SetGlobalUnitName", "ecal/core/src/ecal.cpp: Initialize, SetUnitName", "ecal/core/src/registration/ecal_process_registration.cpp: GetProcessRegisterSample, GetProcessUnregisterSample"]}
{"id": "C107", "title": "Names of objects in shared memory", "statement": "All memory files, mutexes and events of a host live in one name space. Two of them have the same name exactly if they are the same object, for all numbers drawn and all process ids, as long as registration domains keep clear of publishers' file names and of each other; so opening an object finds that object or makes it, never another one. A publisher's file is called by the number drawn last, through any history of connecting, disconnecting and making the file anew, and a connected process has exactly the events which the subscriber opens from the name it is told. The names can always be opened for publishers, and for domains that are short and without inner slash. Not so: equal draws (or, for registration, equal clock readings) silently share one file; a domain may be called like a publisher's file or like a payload file of another domain; a long domain name gets a broadcast file but no payload files; a publisher whose file cannot be made anew is dead for ever and keeps telling the new name.", "quantifier": "all objects, numbers, process ids and sets of domains; all orders of opening and removing objects; all histories of connections of a file", "why_tests_cant": "Random names hardly ever collide in a test; collisions of derived names appear only with domains and ids nobody tries.", "anchors": ["ecal/core/src/io/shm/ecal_memfile_naming.cpp: BuildRandomMemFileName", "ecal/core/src/io/shm/ecal_memfile_sync.cpp: Connect, Disconnect, Create, Destroy, Recreate", "ecal/core/src/io/shm/linux/ecal_memfile_os.cpp: AllocFile", "ecal/core/src/io/mtx/linux/ecal_named_mutex_impl.cpp: named_mutex_buildname", "ecal/core/src/ecal_event.cpp: CNamedEvent", "ecal/core/src/registration/shm/ecal_memfile_broadcast.h: BuildPayloadMemfileName", "ecal/core/src/readwrite/shm/ecal_reader_shm.cpp: SetConnectionParameter"]}
{"id": "C108", "title": "Exceptions of the dynamic subscribers", "statement": "The deserializer of protobuf messages gives a message whenever the decoder knows the type (C101) and the expected exception otherwise; its subscriber never ends the process. The JSON deserializer finds types by their full names, nested ones too, unless an earlier file begins with a type of the same short name, and keeps them. While the process lives, each message that arrives with callbacks set is reported once. Exceptions: JSON and Cap'n Proto deserializers throw pointers, which nobody catches, so that undecodable bytes end the process; the Cap'n Proto deserializer loads only schemas it already knows, so that the first message of every topic fails; its builder grows with every message; protobuf messages that cannot be parsed are handed over.", "quantifier": "all type informations, histories of messages and calls, all libraries below (oracles)", "why_tests_cant": "Tests decode one well formed message of one type; whether a thrown pointer is caught shows only in a crash.", "anchors": ["ecal/core/include/ecal/msg/dynamic.h: CDynamicMessageSubscriber::Receive, ReceiveCallback, PopulateDatatypeInfo", "ecal/core/include/ecal/msg/protobuf/dynamic_json_subscriber.h: ProtobufDynamicJSONDeserializer", "ecal/core/include/ecal/msg/protobuf/dynamic_subscriber.h: ProtobufDynamicDeserializer", "ecal/core/include/ecal/msg/capnproto/dynamic.h: CapnprotoDynamicDeserializer", "ecal/core/include/ecal/msg/capnproto/helper.h: SchemaFromDescriptor"]}
{"id": "C109", "title": "Typed messages in other formats, and publishers that hold their message", "statement": "A flatbuffers message below 2 GiB is written as it is and read into a new object as the same bytes; an object used again has the newest message in front of all earlier ones. The messagepack serializer and the Cap'n Proto payload write exactly the announced bytes, or nothing if the memory is too small. The Cap'n Proto reader received last shows the last message; every earlier one shows default values. A publisher that holds its message (Cap'n Proto, dynamic protobuf) sends the value written last into it, to its topic, announced with the type of the message, also after moves and when messages are shared, as long as only publishers that have a message are used; no such program touches memory that is gone. Not true: a reused flatbuffers object holds just the new message; messages of 2 GiB can be received; a received Cap'n Proto message keeps its contents; accepted Cap'n Proto bytes are whole words; a dynamic publisher without message refuses to send; a moved-from Cap'n Proto publisher cannot change what the new one sends.", "quantifier": "all messages, packings and parsers; all sequences of messages; all programs of constructions, edits, sends, moves, assignments and deletions", "why_tests_cant": "Tests use each object for one message and do not keep messages, nor touch objects after moving them.", "anchors": ["ecal/core/include/ecal/msg/flatbuffers/publisher.h: GetSize, Serialize", "ecal/core/include/ecal/msg/flatbuffers/subscriber.h: FlatbuffersDeserializer::Deserialize", "ecal/core/include/ecal/msg/messagepack/publisher.h: GetSize, Serialize", "ecal/core/include/ecal/msg/capnproto/publisher.h: CPayload, CPublisher, GetBuilder, Send", "ecal/core/include/ecal/msg/capnproto/subscriber.h: CapnprotoDeserializer::Deserialize", "ecal/core/include/ecal/msg/protobuf/dynamic_publisher.h: CDynamicPublisher"]}
{"id": "C110", "title": "Timers and threads", "statement": "In programs that start and stop each timer from one thread, whatever the threads of the timers do meanwhile and in C++ and C alike: Start says true exactly for a timer that is off and a timeout that is not negative, Stop exactly for a timer that is on; a callback begins only between a call of Start and the return of the next Stop, and behind Stop none is inside; the process never ends, every call can return, and a timer that is on can always call again. In C no two callbacks of timers run at a time, in any program. Exceptions: in C a callback that stops another timer which is about to call back waits for ever, and no timer of the process calls back again; a callback that stops its own timer ends the process, or is ignored if Start has not yet returned; two threads that stop one timer can end the process; a null callback leaves a timer that counts as running in C++ and is called in C.", "quantifier": "all programs of any number of threads and timers, all interleavings at the grain of single accesses to atomics and mutexes", "why_tests_cant": "The races are a few instructions wide; a test of the deadlock would hang.", "anchors": ["ecal/core/src/time/ecal_timer.cpp: CTimerImpl::Start, Stop, Thread", "ecal/core/src/cimpl/ecal_timer_cimpl.cpp: g_timer_callback, eCAL_Timer_Start, eCAL_Timer_Stop"]}
{"id": "C111", "title": "Questions of C programs about types, log and time", "statement": "After any history of registrations, the C getters for a topic store the wanted text of the best live description completely if it is not empty and fits, and otherwise return 0 and write nothing; the best description is unique, and the four getters for a method of a service or client report from one live description of it; null names and null buffers give 0; the log is handed over completely in a buffer that is large enough; the text of the time status comes in memory of its own if the caller asks for that, and its number in any case. Exceptions: type name and encoding asked one after the other may belong to different publishers; 0 does not tell an unknown topic from an empty text or a buffer that is too small; log messages that do not fit into the buffer are lost; a buffer of the caller for the text of the time status is not used: the text is written over the pointer to it and beyond; a null pointer for the number is followed.", "quantifier": "all histories of registrations, all names, texts, buffers, lengths and answers of the allocator, all states of the log", "why_tests_cant": "Tests ask once, with one publisher and a large buffer.", "anchors": ["ecal/core/src/cimpl/ecal_util_cimpl.cpp: eCAL_Util_GetTopicTypeName, eCAL_Util_GetTopicEncoding, eCAL_Util_GetTopicDescription, eCAL_Util_GetServiceRequestTypeName, eCAL_Util_GetClientResponseDescription", "ecal/core/src/cimpl/ecal_log_cimpl.cpp: eCAL_Logging_GetLogging", "ecal/core/src/cimpl/ecal_time_cimpl.cpp: eCAL_Time_GetStatus"]}
{"id": "C112", "title": "The locks of publishing and subscribing never stop all threads, if callbacks keep to the rules", "statement": "However many threads of a process create, use and destroy publishers and subscribers, while the library's threads deliver samples and registrations, send registrations and clean up, some thread can always go on: all threads reach the end of what they do, in every order of execution, and leave no lock behind. This holds if the user's callbacks keep to one of three sets of rules: (a) without Finalize, receive callbacks may use publishers, create subscribers and ask about subscribers but not destroy subscribers or change receive callbacks; registration callbacks may do anything except start or stop monitoring; event callbacks of subscribers may use publishers only, event callbacks of publishers may use neither; (b) the same with the roles of the event callbacks exchanged: events of publishers may create subscribers and ask about them, events of subscribers use neither; (c) with Finalize at any time, as (a) but receive callbacks create no subscriber. Callbacks under the same lock (the receive callback of a subscriber, the events of a subscriber, the events of a publisher) never run at the same time, and none is running when the call that removes it has the lock. Without the rules there are states in which threads wait for ever: creating a subscriber in a subscriber event, asking or sending in the connected or disconnected event, removing a callback in itself, two receive callbacks destroying each other's subscriber, Finalize against a receive callback that creates a subscriber, using publishers in subscriber events and subscribers in publisher events.", "quantifier": "all numbers of threads, readers, writers and memory files, all sequences of calls and jobs, all behaviours of callbacks within the rules, all interleavings, both policies of shared locks", "why_tests_cant": "A deadlock needs two threads inside windows of a few instructions of different functions; the number of interleavings of a handful of threads is beyond any test, and the policy of the shared lock differs between platforms.", "anchors": ["ecal/core/src/pubsub/ecal_subgate.cpp: CSubGate", "ecal/core/src/pubsub/ecal_pubgate.cpp: CPubGate", "ecal/core/src/readwrite/ecal_reader.cpp: CDataReader", "ecal/core/src/readwrite/ecal_writer.cpp: CDataWriter", "ecal/core/src/registration/ecal_registration_sample_applier.cpp: CSampleApplier::ApplySample", "ecal/core/src/registration/ecal_registration_provider.cpp: CRegistrationProvider::RegisterSendThread"]}
{"id": "C113", "title": "The locks of services, publishing and subscribing together never stop all threads, if callbacks keep to the rules", "statement": "As C112, with service clients and servers in the same process and without Finalize: however many threads use publishers, subscribers, clients and servers, while the library's threads do their work and the four threads of the service library read requests and answers, some thread can always go on, all reach their end in every order of execution (so every blocking call returns), and no lock is left behind. Answers of other processes are assumed to come, delivered by a free thread of the four and one at a time per connection. The rules for the user's callbacks, besides those of C112 for the callbacks of publishers and subscribers: events of publishers and subscribers use no client and no server beyond creating, asking and methods; events of clients use no client, no server beyond creating, asking and methods, and no more of subscribers than creating and asking; response callbacks make no blocking call without timeout, no call with response callback, and change neither response callbacks nor server events nor end clients or servers; method callbacks make no blocking call without timeout; server events additionally change no server events and end no server; and either these do not change receive callbacks or end subscribers, or receive callbacks make no blocking call without timeout or with response callback, change no response callback and no server event and end no client or server. Response callbacks of one client never run at the same time, nor do the events of one client or of one server, and none is running when the call that removes it has the lock. Method callbacks are the exception: they run at the same time, at most four in the process, and may run after they have been removed. Without the rules there are states in which threads wait for ever: IsConnected, changing events, or a call with timeout in a client event, a call in a disconnected event, a call in a connected event against the send thread, creating or destroying a client in a client event, changing, destroying or calling with callback in a response callback, a blocking call to the same service in the callback of an asynchronous call, four method callbacks that make blocking calls, client events and subscriber callbacks that use each other, Finalize against a method callback that makes a connection or a response callback that creates a client.", "quantifier": "all numbers of threads, clients, servers, connections, readers and writers, all sequences of calls and jobs, all nested behaviours of callbacks within the rules, all interleavings, both policies of shared locks, answers that need one or all of the four threads", "why_tests_cant": "The hangs need callbacks at particular moments in several threads, and some need all four threads of the service library at once; none of the library's tests calls the library from the events, and no test can try the interleavings of six threads.", "anchors": ["ecal/core/src/service/ecal_service_client_impl.cpp: CServiceClientImpl", "ecal/core/src/service/ecal_service_server_impl.cpp: CServiceServerImpl", "ecal/core/src/service/ecal_clientgate.cpp: CClientGate", "ecal/core/src/service/ecal_servicegate.cpp: CServiceGate", "ecal/core/src/service/ecal_service_singleton_manager.cpp: ServiceManager", "ecal/service/ecal_service/src/client_session_impl_v1.cpp: ClientSessionV1", "ecal/service/ecal_service/src/server_session_impl_v1.cpp: ServerSessionV1"]}
{"id": "C114", "title": "Services of other processes are found, and what is known of them is true", "statement": "Take any number of processes with servers and clients whose registrations travel as UDP datagrams that may be lost, delayed, doubled or reordered. No run is undefined. Whatever a process knows of a service, and whatever a client counts as connected, was true of a server at some moment (name, id, process, host, ports), and every session of a client leads to the host and the better port of such a server. Every cycle announces each listening server with its current methods; when the datagram arrives at a process that listens to its sender, the service is known at once and every client of that name counts it; a following call goes there, and in general to exactly the known services of that name on the chosen host. A service stays known until a registration of a service arrives more than five seconds after its last one, and after any such arrival only services heard in the last five seconds are known. A counted service stops being counted exactly when a cycle finds its session failed; sessions are never replaced. Different services have different keys if ids contain no colon and hosts no at-sign. Exceptions: withdrawals are ignored, so a destroyed server stays known and called; nothing is forgotten while no registration of a service arrives; the five seconds do not follow the configured refresh and timeout, so living servers are forgotten with slow refreshes; a service lost before a session was opened counts as connected for ever; a client created after the registration says not connected although its calls arrive; with a host group of another name and without network mode services on the same host are not found; with such a group and network mode own services are heard although loopback is off; a server with one port missing leaves an entry without content.", "quantifier": "all numbers of processes, servers and clients, all sequences of operations, all datagrams delivered in any order, any number of times or never, all clocks that do not go back", "why_tests_cant": "Tests run two processes on one host for a few seconds with default settings; loss, reordering, slow refresh, host groups and servers that die at particular moments do not occur in them.", "anchors": ["ecal/core/src/service/ecal_clientgate.cpp: CClientGate::ApplyServiceRegistration", "ecal/core/src/service/ecal_service_client_impl.cpp: CServiceClientImpl::CheckForNewServices", "ecal/core/src/service/ecal_service_server_impl.cpp: CServiceServerImpl::GetRegistrationSample", "ecal/core/src/registration/ecal_registration_sample_applier.cpp: CSampleApplier::AcceptRegistrationSample", "ecal/core/src/registration/ecal_registration_provider.cpp: CRegistrationProvider::RegisterSendThread"]}
{"id": "C115", "title": "Asking other processes to shut down", "statement": "With whole calls one after another, Ok answers no exactly once, at the first call after the first request made since the process's first call of Ok; requests before that first call and requests after that first request are lost. With the steps of calls and requests in any order: every answer no has a request of its own; a request that begins when the process's event can be opened by its name is answered with no; once a request made after the process opened its event is over and none is under way, at most the very next answer is no, for ever. Requests to one process do not touch another. ShutdownProcess addresses the processes of this host with the given process name (not the unit name it is documented to take); ShutdownProcesses and ShutdownCore together address every process of this host exactly once, and none of another host. A first call of Ok at the same time as a request can leave the process without event for ever, end either process with SIGBUS, or lose another request; a request can reach the next process with the same id.", "quantifier": "every sequence of whole calls, every interleaving of the steps of calls of Ok, of requests by any number of processes and of processes ending, every list of processes", "why_tests_cant": "Needs a second request, a request before the first call of Ok, or several processes in the few steps of creating an event; a test asks one running process once.", "anchors": ["ecal/core/src/ecal_util.cpp:eCAL::Util::ShutdownProcess", "ecal/core/src/ecal_util.cpp:eCAL::Util::ShutdownProcesses", "ecal/core/src/ecal_util.cpp:eCAL::Util::ShutdownCore", "ecal/core/src/ecal.cpp:ShutdownProcEvent", "ecal/core/src/ecal.cpp:eCAL::Ok", "ecal/core/src/ecal_event.cpp:CNamedEvent", "ecal/core/src/cimpl/ecal_util_cimpl.cpp:eCAL_Util_ShutdownUnitName"]}
{"id": "C116", "title": "What a monitor sees of other processes is true, complete and current, up to named cases", "statement": "Take any number of processes with publishers, subscribers, servers and clients whose registrations travel as UDP datagrams that may be lost, delayed, doubled or reordered, and which look at the monitoring. With well-formed filter patterns no run is undefined. Each cycle sends one datagram for the process and one per entity, describing it as it is (blank for a server without all its ports). A datagram that arrives in a process that listens to it and lets it pass shows up in the next look with its data. Every entry shows a datagram handed over within the timeout that told the truth when it was sent; entries stay until the timeout or a withdrawal under their label; a withdrawal heard, with nothing announced under the label since, removes the entry; there is one entry per label. An entity or process that ends says so under the label of its registrations and is not announced any more. Not true: that an entity withdrawn stays away and that the latest state is shown (datagrams overtaken by newer ones are believed), that processes of one name and process id on two hosts are both listed, that every server listed exists, and that a monitor without network mode sees the processes and services of its host group.", "quantifier": "all numbers of processes and entities, all sequences of operations, all datagrams delivered in any order, any number of times or never, all settings, filters and clocks that do not go back", "why_tests_cant": "Tests look at the monitoring of one process on one host after a few cycles; overtaking datagrams, equal process ids on several hosts and failed ports do not occur in them.", "anchors": ["ecal/core/src/monitoring/ecal_monitoring_impl.cpp: CMonitoringImpl::OnProcessRegistration, GetMonitoring", "ecal/core/src/registration/ecal_process_registration.cpp: GetProcessRegisterSample", "ecal/core/src/registration/ecal_registration_provider.cpp: CRegistrationProvider::RegisterSendThread", "ecal/core/src/registration/ecal_registration_sample_applier.cpp: CSampleApplier::ApplySample", "ecal/core/src/readwrite/ecal_writer.cpp: CDataWriter::GetRegistrationSample", "ecal/core/src/readwrite/ecal_reader.cpp: CDataReader::GetRegistrationSample", "ecal/core/src/service/ecal_service_server_impl.cpp: CServiceServerImpl::GetRegistrationSample", "ecal/core/src/service/ecal_service_client_impl.cpp: CServiceClientImpl::GetRegistrationSample"]}
{"id": "C117", "title": "Publishing and subscribing between processes, from discovery to the callback", "statement": "Take any number of processes with publishers and subscribers whose registrations and packets may be lost, delayed, doubled or reordered and may arrive anywhere. No run is undefined, and sending does not disturb the discovery. A publisher writes to the right layer for every subscriber it lists, and to a layer only if at some moment it listed a subscriber for which it was the right one; what it takes a listed subscriber to read is what that subscriber reads. A send puts exactly one packet on each of the publisher's layers if it lists a subscriber, and nothing otherwise; its result is the size unless every layer failed (the size also if nothing was sent). When a packet arrives at a process whose subscriber of the topic still takes the message, its callback gets exactly what was sent; every callback and every read reports a message some publisher of the topic sent while it listed a subscriber; a subscriber that drops what is out of order gets each publisher's messages in ascending order without repetition. A publisher and a subscriber of a topic with a common layer need only one cycle of the subscriber's process that reaches the publisher's process: the next send and the arrival of its packet call the callback. Not true: that layers without subscribers are left alone, that a send which reports success has sent something, that a subscriber gets messages only of publishers it lists.", "quantifier": "all numbers of processes, publishers and subscribers, all settings of layers and priorities, all sequences of operations, all registrations and packets delivered in any order, any number of times, anywhere or never", "why_tests_cant": "The library's tests run a publisher and a subscriber in one process, with waits long enough for discovery and no loss; the interplay of late discovery, several layers and reordered packets over several hosts is not exercised.", "anchors": ["ecal/core/src/pubsub/ecal_publisher.cpp: CPublisher::Send", "ecal/core/src/readwrite/ecal_writer.cpp: CDataWriter::ApplySubscription, CDataWriter::Write", "ecal/core/src/readwrite/ecal_reader.cpp: CDataReader::GetRegistrationSample, CDataReader::ApplySample", "ecal/core/src/pubsub/ecal_subgate.cpp: CSubGate::ApplySample, CSubGate::HasSample", "ecal/core/src/readwrite/udp/ecal_reader_udp.cpp: CUDPReaderLayer::ApplySample", "ecal/core/src/readwrite/tcp/ecal_reader_tcp.cpp: CDataReaderTCP::OnTcpMessage"]}
{"id": "C118", "title": "Memory files are watched while their publishers are heard", "statement": "For every memory file named in registrations a process has at most one thread that waits for its content. A file without observer gets one; a registration keeps a thread that is in its loop and starts no second one; the thread stays as long as, whenever it looks at the clock, a registration or a signal came within the timeout, and hands over what is signalled with ascending counters, nothing twice. Without a sign of life for the timeout the thread ends, the next cleaning removes the observer, and the file can then be watched again. After Stop nothing is handed over, if nobody was inside ObserveFile. Not true: that a file is watched for the timeout after ObserveFile has returned true - an observer that timed out and was not yet removed is restarted with the old time and ends at once; a thread that has left its loop counts as observing for a moment; a call that waits for the lock during Stop starts an observer afterwards.", "quantifier": "all sequences of registrations, signals, cleanings, looks at the clock and stops, in any interleaving, all times that do not go back, all timeouts and files", "why_tests_cant": "The timeout is ten seconds: no test waits that long, and the windows between the timeout, the cleaning once a second and the next registration are not hit by chance.", "anchors": ["ecal/core/src/io/shm/ecal_memfile_pool.cpp: CMemFileThreadPool::ObserveFile, CMemFileThreadPool::CleanupPool, CMemFileThreadPool::Stop, CMemFileObserver::Observe, CMemFileObserver::Start, CMemFileObserver::ResetTimeout", "ecal/core/src/readwrite/shm/ecal_reader_shm.cpp: CSHMReaderLayer::SetConnectionParameter"]}
{"id": "C119", "title": "Data shared between threads are used under a common lock, with named exceptions", "statement": "Consider all threads that work in a process at the same time: those of the user that call a publisher, a subscriber, a client or a server or the global functions, the threads that receive and send registration, that receive payload, that serve service calls, receive log messages and clean up. Whatever calls they make, in whatever order, and however many of them there are, two threads are never about to use the same variable that is not atomic with one of them writing, except for the variables and pairs of calls of a named list. The maps of subscriptions, publications, callbacks, services, methods, descriptions and of the monitoring, the log's lists and files and the registration's list of samples are only used with their own lock held exclusively; the gates are written with their lock exclusive and read with it at least shared; the payload and packet buffers, the writing position and the contents of the memory files of a publisher belong to the one thread that sends; names and configurations are not written any more; what is taken down at the end is taken down when nobody can use it. The named exceptions do happen: the clock, id, size and layer marks of a publisher, its layers' writers, the name of its memory file, its type information and attributes; the id filter, attributes, drop counter and layer marks of a subscriber, and its buffer during Dump; the reader layers while two subscribers are created at once; the connected services of a client, and the names of clients and servers while they are stopped; loopback flag, registration callbacks, unit name, process state, filter texts and log level.", "quantifier": "all numbers of threads, all programs of calls, all interleavings at the granularity of single accesses and lock operations, all choices of branches and loops", "why_tests_cant": "A data race need not show in a run, and a sanitizer sees only the interleavings that happen; that no interleaving of any number of threads has one is a statement about all of them.", "anchors": ["ecal/core/src/readwrite/ecal_writer.cpp: CDataWriter::Write, ApplySubscription, GetRegistrationSample", "ecal/core/src/readwrite/ecal_reader.cpp: CDataReader::ApplySample, GetRegistrationSample, SetID, Dump", "ecal/core/src/pubsub/ecal_pubgate.cpp: CPubGate::GetRegistrations, ApplySubRegistration", "ecal/core/src/pubsub/ecal_subgate.cpp: CSubGate::ApplySample", "ecal/core/src/service/ecal_clientgate.cpp: CClientGate::Stop", "ecal/core/src/service/ecal_service_client_impl.cpp: CServiceClientImpl::CheckForDisconnectedServices, Stop", "ecal/core/src/service/ecal_service_server_impl.cpp: CServiceServerImpl::RequestCallback, Stop", "ecal/core/src/registration/ecal_registration_provider.cpp: CRegistrationProvider::RegisterSendThread", "ecal/core/src/registration/ecal_registration_sample_applier.cpp: CSampleApplier::ApplySample, EnableLoopback", "ecal/core/src/io/shm/ecal_memfile_sync.cpp: CSyncMemoryFile::Recreate, Connect, GetName", "ecal/core/src/logging/ecal_log_impl.cpp: CLog::Log"]}
{"id": "C120", "title": "Calling services between processes, from discovery to the answer", "statement": "Take any number of processes, servers and clients, registrations that may be lost, delayed, doubled or reordered, connections that may be lost anywhere, and calls at any time. The discovery is not disturbed by the calls. Every session of a client has one connection, and the client sees it as failed exactly when it has failed. A session is connected to the running server of the host and port that some server of its service told, to that very server if it still runs; if no port of a host is given twice, never to another one. A session that is not connected to a server has begun no handshake, sent no request and got no answer. A call asks each session it goes to exactly once and no other. Every answer a client gets belongs to a call of this client; its server executed it exactly once, with the bytes of the call and the callback registered for the method when the request came in, and the answer carries what that callback returned, however many clients call at the same time and in whatever order the server works; or it says that the method was unknown. No server executes anything that no client called, and no call of a session twice. While a session is connected, there is a way without any failure to the answer of the awaited call and of every call that waits behind it, whatever the others do; and as long as a session that is not yet connected has not failed and its server runs, there is such a way for every call it was asked, from connecting over the handshake to the answer. After a session has failed, no later call through it is answered. Not true: that a call is only executed by a server of the called service - a server that got the port of another one executes calls meant for that one; that a client gets answers from a running server its process knows - after one lost connection it never does again.", "quantifier": "all sequences of operations of all processes, servers, clients, sessions and connections, in any interleaving, of any length; all names, methods, requests and answers", "why_tests_cant": "Tests call one server in the same process over an undisturbed loopback. Several clients whose requests are taken in one order and executed in another, lost connections at every byte, late registrations and ports given again do not occur in them.", "anchors": ["ecal/core/src/service/ecal_service_client_impl.cpp: CServiceClientImpl::Call, CServiceClientImpl::CallAsync, CServiceClientImpl::CallBlocking, CServiceClientImpl::CheckForNewServices, CServiceClientImpl::CheckForDisconnectedServices", "ecal/core/src/service/ecal_service_server_impl.cpp: CServiceServerImpl::Start, CServiceServerImpl::RequestCallback", "ecal/service/ecal_service/src/client_session_impl_v1.cpp: ClientSessionV1::async_call_service, ClientSessionV1::send_next_service_request", "ecal/service/ecal_service/src/server_session_impl_v1.cpp: ServerSessionV1::receive_service_request", "ecal/service/ecal_service/src/server_impl.cpp: ServerImpl::start_accept"]}
{"id": "C121", "title": "The directories of eCAL below the home directory", "statement": "The functions for the home, settings and log directory return the home directory of the environment followed by .ecal, .ecal/cfg and .ecal/logs and a slash, and make the missing directories. Afterwards the path leads to a directory, and to which one, exactly if the home directory leads to a directory and each of the components is a directory in it or there is nothing and it may be made; relative home directories and dots are followed as the system does. Nothing else of the file system changes, and a second call gives the same and changes nothing. Logging finds its directory exactly then. Not true: that the functions are defined in every environment - without HOME and without an entry for the user a null pointer is read; that a missing home directory only costs the log file - with a file filter nothing at all is logged; that the path returned leads to a directory whenever the home directory can be written - not if there is a file of that name; that an empty HOME is no home directory - it is taken for the root.", "quantifier": "all environments, file systems, working directories and permissions", "why_tests_cant": "Tests run under a user with a home directory that exists and already has the directories; none of the functions is called in another environment.", "anchors": ["ecal/core/src/config/ecal_config_initializer.cpp: GeteCALHomePath, GeteCALUserSettingsPath, GeteCALLogPath, direxists, createdir", "lib/ecal_utils/src/filesystem.cpp: FileStatus::FileStatus, MkDir", "ecal/core/src/logging/ecal_log_impl.cpp: CLog::Start"]}
{"id": "C122", "title": "A connection of the legacy service protocol as a whole", "statement": "A session of the legacy protocol (version 0) sends its calls in the order in which they were made, the next one only after the answer to the last one. The bytes given to the service callback are those of the requests, in their order and without loss or doubling. The k-th answer given to a caller is what the callback returned for its k-th execution. If no request is cut - whenever the server takes what it has read for a request, nothing of it is still on its way - then the executed requests are those of the calls, each once and in order, every caller gets the answer to its own request, and as long as the connection is not lost there is a way to the answers of all calls made, if no request is empty. Not true: that the caller gets the answer to its own request in general - a request that arrives in pieces is executed piece by piece and the caller gets the answer to the first piece; that only this call is affected - every later call of the connection gets the answer to the request before it; that every call is answered - an empty request never is, nor is any call after it.", "quantifier": "all sequences of calls, requests, answers, segmentations of both byte streams, and interleavings of client, network and server, of any length", "why_tests_cant": "Tests send short requests over loopback, where they arrive in one piece; where the segments end cannot be controlled from a test, and a torn request shows only as a wrong answer to another call.", "anchors": ["ecal/service/ecal_service/src/client_session_impl_v0.cpp: ClientSessionV0::async_call_service, ClientSessionV0::send_next_service_request, ClientSessionV0::receive_service_response", "ecal/service/ecal_service/src/server_session_impl_v0.cpp: ServerSessionV0::handle_read, ServerSessionV0::handle_write", "ecal/service/ecal_service/src/protocol_v0.cpp: async_receive_payload_with_header"]}
