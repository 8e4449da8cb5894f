{
 "claims": [
  {
   "property": "C01",
   "status": "proved",
   "theorems": [
    "c01_no_dangling_iterator",
    "c01_listing_refines_spec",
    "c01_announced_in_time_is_listed",
    "c01_listed_after_purge_was_announced_in_time",
    "c01_purge_reports_exactly_the_removed_keys"
   ],
   "note": "For every history of announcements, look-ups, withdrawals and purges, on a monotone clock."
  },
  {
   "property": "C02",
   "status": "partial",
   "theorems": [
    "c02_insert_then_refresh_refuted",
    "c02_fresh_inserts_refine_spec_partial"
   ],
   "note": "Refuted: the explicit insert of a listed key corrupts the recency list, so a later refresh does not keep the key alive. Partial: true when inserts only use unlisted keys."
  },
  {
   "property": "C03",
   "status": "proved",
   "theorems": [
    "c03_queue_is_bounded_fifo"
   ],
   "note": "Refinement to a bounded list for every history and any initial memory content."
  },
  {
   "property": "C04",
   "status": "partial",
   "theorems": [
    "c04_polls_return_new_events",
    "c04_every_event_exactly_once",
    "c04_equal_time_stamps_refuted"
   ],
   "note": "Proved for strictly increasing time stamps and one common queue size; refuted when two events carry the same time stamp across a poll."
  },
  {
   "property": "C05",
   "status": "partial",
   "theorems": [
    "c05_batch_read_collects_all_readable_partial",
    "c05_one_unreadable_payload_hides_the_others_refuted"
   ],
   "note": "Refuted for the receiver as a whole (one payload that cannot be opened makes it drop the whole batch). Partial: the batch reader itself collects all readable payloads."
  },
  {
   "property": "C06",
   "status": "proved",
   "theorems": [
    "c06_acceptance_and_delivery"
   ],
   "note": "Decision rule and delivery for every configuration, history and sample."
  },
  {
   "property": "C07",
   "status": "proved",
   "theorems": [
    "c07_clocks_strictly_increase",
    "c07_no_duplicate_within_window"
   ],
   "note": "For every history of arrivals over any layers and of API calls; the duplicate window of 64 is shown to be tight."
  },
  {
   "property": "C08",
   "status": "partial",
   "theorems": [
    "c08_drop_count_is_missed_plus_gaps_partial",
    "c08_drop_count_refuted",
    "c08_zero_iff_nothing_missed_partial",
    "c08_dropped_event_iff_gap"
   ],
   "note": "Refuted: every gap is counted one too high (the clock difference is added instead of the number of missing messages). Partial: the count is exactly missed messages plus number of gaps, it is zero iff nothing was missed, and the dropped event fires exactly on gaps."
  },
  {
   "property": "C09",
   "status": "proved",
   "theorems": [
    "c09_receive_returns_newest_once",
    "c09_callback_consumes"
   ],
   "note": "For every history; a waiting receive is modelled at the moment it stops waiting."
  },
  {
   "property": "C10",
   "status": "proved",
   "theorems": [
    "c10_delivered_only_if_enabled_and_requested",
    "c10_filtered_message_changes_nothing",
    "c10_filtered_messages_count_as_dropped_refuted",
    "c10_acceptable_new_message_is_delivered"
   ],
   "note": "Proved both directions. The additional refuted theorem records that messages removed by the id filter are later reported as dropped."
  },
  {
   "property": "C11",
   "status": "partial",
   "theorems": [
    "c11_events_alternate_partial",
    "c11_connected_iff_registered_after_check_partial",
    "c11_overlapping_check_events_refuted",
    "c11_overlapping_check_flag_refuted"
   ],
   "note": "Partial: proved for every history of complete calls (after each connection check connected iff some publisher is registered within the timeout). Refuted when a check overlaps the application of a publication."
  },
  {
   "property": "C12",
   "status": "partial",
   "theorems": [
    "c12_events_alternate_partial",
    "c12_connected_iff_subscribed_after_check_partial",
    "c12_overlapping_check_events_refuted",
    "c12_connection_counts"
   ],
   "note": "As C11, for the publisher, plus the published local/external connection counts."
  },
  {
   "property": "C13",
   "status": "proved",
   "theorems": [
    "c13_layers_carry_the_same_message",
    "c13_hash_differs_for_different_clocks"
   ],
   "note": "For every history of complete sends; hash uniqueness within one publisher for the first 2^63 sends with std::hash<long long> the identity."
  },
  {
   "property": "C14",
   "status": "proved",
   "theorems": [
    "c14_best_common_layer_is_chosen",
    "c14_layers_in_use",
    "c14_layer_stays_in_use"
   ],
   "note": "Choice rule and permanence of layers for every configuration and history; Stop is not modelled."
  },
  {
   "property": "C15",
   "status": "proved",
   "theorems": [
    "c15_send_returns_size_iff_accepted"
   ],
   "note": "For every history and every outcome of the layers."
  },
  {
   "property": "C16",
   "status": "partial",
   "theorems": [
    "c16_layer_started_during_zero_copy_send_refuted",
    "c16_whole_sends_hand_over_their_own_bytes_partial",
    "c16_without_zero_copy_no_interleaving_hurts_partial"
   ],
   "note": "Refuted: a layer started during a zero-copy send is handed the never filled internal buffer. Partial: holds for non-overlapping calls, and with zero copy off for every interleaving."
  },
  {
   "property": "C17",
   "status": "partial",
   "theorems": [
    "c17_no_fault_partial",
    "c17_kept",
    "c17_other_file",
    "c17_full_write",
    "c17_no_files_refuted"
   ],
   "note": "Proved for every n > 0 and every interleaving with observers: a message stays in its file until the n-th later send begins, fewer than n sends apart use different files, n > 1 forces complete writes. Refuted: if creating a memory file fails the ring is empty and the next send computes an index modulo zero."
  },
  {
   "property": "C18",
   "status": "partial",
   "theorems": [
    "c18_no_memory_fault_partial",
    "c18_read_exactly_in_window_partial",
    "c18_write_exactly_in_window_partial",
    "c18_written_bytes_are_read_elsewhere_partial",
    "c18_exclusive_access_partial",
    "c18_exclusive_access_refuted",
    "c18_creator_with_smaller_size_refuted",
    "c18_creator_after_reader_refuted",
    "c18_read_bound_overflow_refuted"
   ],
   "note": "Partial: proved for any number of processes and every history that keeps to stated rules (creators of a name agree on the size, an object is destroyed before it is created again, no creator joins a process that already reads the file, no size_t overflow). Refuted without them: a second creator with a smaller size cuts the file (fault), a creator after a reader in one process gets a read only mapping (fault), Read with a wrapping length+offset, and destroying any object opens a lock held by another."
  },
  {
   "property": "C19",
   "status": "partial",
   "theorems": [
    "c19_good_payload_partial",
    "c19_failed_payload_refuted"
   ],
   "note": "Refuted: the result of the payload writer is ignored, the send returns true and the observers hand over what is in memory. Partial: if no payload writer fails the bytes handed over are the payload."
  },
  {
   "property": "C20",
   "status": "partial",
   "theorems": [
    "c20_entries_count_users_partial",
    "c20_last_destroy_removes_partial",
    "c20_stale_address_refuted",
    "c20_mapping_leak_refuted"
   ],
   "note": "Partial: reference count, liveness and uniqueness of mappings and removal proved under the rules of C18. Refuted: when a mapping grows a second object of the process keeps the old address; a failing mutex creation leaks the mapping."
  },
  {
   "property": "C21",
   "status": "partial",
   "theorems": [
    "c21_no_fault_partial",
    "c21_one_holder_partial",
    "c21_granted_iff_free_partial",
    "c21_released_lock_is_free_partial",
    "c21_destructor_releases_foreign_lock_refuted",
    "c21_foreign_unlock_refuted",
    "c21_creation_race_refuted",
    "c21_creation_race_fault_refuted",
    "c21_creation_race_no_handle_refuted",
    "c21_owner_unlinks_refuted",
    "c21_holder_dies_refuted"
   ],
   "note": "Plain and robust (recoverable) implementation, any number of clients, any interleaving of system calls and critical sections. Partial: for users that keep explicit rules; each rule is shown to be needed by a refuted statement (destructor and Unlock of a non-holder release the lock, creation races, the creator unlinks the name, death of a holder). The robust implementation needs fewer rules."
  },
  {
   "property": "C22",
   "status": "partial",
   "theorems": [
    "c22_no_fault_partial",
    "c22_wait_succeeds_iff_set_partial",
    "c22_one_wait_per_set_partial",
    "c22_set_during_creation_lost_refuted",
    "c22_handle_without_event_refuted",
    "c22_creation_race_fault_refuted",
    "c22_owner_closes_first_refuted"
   ],
   "note": "Partial: for users that do not open an event while it is created and close owning handles last; refuted otherwise."
  },
  {
   "property": "C23",
   "status": "partial",
   "theorems": [
    "c23_send_waits",
    "c23_waits_for_responsive_partial",
    "c23_acknowledges_this_message_partial",
    "c23_returns_alone",
    "c23_old_acknowledgement_refuted",
    "c23_waited_for_again_refuted",
    "c23_acknowledgement_lost_refuted"
   ],
   "note": "Partial: who is waited for, acknowledgement or timeout before the return, the publisher gets out of the waiting alone within the configured time; an acknowledgement is one for this message if the reader was not busy when the send began. Refuted otherwise: an old acknowledgement is accepted, an acknowledgement is lost, a replaced file is waited for again without a reconnect."
  },
  {
   "property": "C24",
   "status": "partial",
   "theorems": [
    "c24_delivered_partial",
    "c24_ack_after_delivery",
    "c24_restart_refuted"
   ],
   "note": "Partial: for every interleaving, per start of an observer. Refuted across a restart of the observer (last clock is forgotten)."
  },
  {
   "property": "C25",
   "status": "proved",
   "theorems": [
    "c25_messages_survive_segmentation",
    "c25_incomplete_message_delivers_nothing",
    "c25_segmentation_is_irrelevant",
    "c25_longer_headers_are_skipped"
   ],
   "note": "For every list of messages (payloads below 2^32 bytes) and every segmentation, also for headers longer than the known one; the reader is a byte-wise state machine, so the claim covers arbitrary byte streams too (only their concatenation matters)."
  },
  {
   "property": "C26",
   "status": "partial",
   "theorems": [
    "c26_payloads_below_4gib_partial",
    "c26_larger_payloads_are_truncated",
    "c26_any_size_refuted"
   ],
   "note": "Refuted: the length field has 32 bits, every payload of 4 GiB or more is handed over truncated. Partial: below that everything arrives and the stream stays in sync."
  },
  {
   "property": "C27",
   "status": "partial",
   "theorems": [
    "c27_whole_requests_refuted",
    "c27_every_request_can_be_torn",
    "c27_request_arrived_at_once_partial",
    "c27_request_is_answered",
    "c27_bytes_are_kept",
    "c27_empty_request_is_never_answered",
    "c27_responses_survive_segmentation"
   ],
   "note": "Refuted: requests carry no length, a handler that runs between two segments hands over a part as a request of its own; an empty request is never seen. Partial: a request that has arrived before the session reads is handed over once, whole and (after enough reads) certainly; no byte is lost; responses survive any segmentation."
  },
  {
   "property": "C28",
   "status": "proved",
   "theorems": [
    "c28_server_picks_highest_common",
    "c28_session_agreement",
    "c28_other_messages_are_refused"
   ],
   "note": "For every pair of version bytes and every range of the server. (The client's check of the answer compares with its minimum version twice, which is harmless while minimum = maximum = 1.)"
  },
  {
   "property": "C29",
   "status": "partial",
   "theorems": [
    "c29_at_most_once",
    "c29_exactly_once",
    "c29_settles",
    "c29_order",
    "c29_connection_events",
    "c29_stop",
    "c29_stop_while_connecting_refuted",
    "c29_error_order_refuted",
    "c29_idle_loss_is_noticed_refuted"
   ],
   "note": "Every history of calls, answers, losses and stops, for both protocol versions (the handler of the legacy write that runs outside the strand is covered by letting it run at any point). Partial: at most one callback per accepted call, exactly one once the session has settled, bound on the number of steps, answers of a working connection in order, stop. Refuted: stop while resolving or connecting has no effect, error answers may overtake each other, the loss of an idle connection goes unnoticed after unsolicited bytes. Callbacks are assumed not to throw and the io context to keep running."
  },
  {
   "property": "C30",
   "status": "partial",
   "theorems": [
    "c30_results",
    "c30_servers",
    "c30_late_answers",
    "c30_success",
    "c30_handed_over",
    "c30_executed",
    "c30_own_answer_partial",
    "c30_waits_for_all",
    "c30_returns",
    "c30_all_are_called",
    "c30_answers_accepted",
    "c30_stopped_session_raises_timeout_refuted"
   ],
   "note": "Partial: any number of servers, every order of answers, losses and the deadline; results, executed servers, waiting and liveness proved. Refuted: a session that was stopped before the call raises a timeout event although nothing was waited for."
  },
  {
   "property": "C31",
   "status": "partial",
   "theorems": [
    "c31_request",
    "c31_answers_readable_partial",
    "c31_registration",
    "c31_call_counter",
    "c31_no_termination_partial",
    "c31_all_answered_partial",
    "c31_described_method_terminates_refuted",
    "c31_removed_callback_called_refuted"
   ],
   "note": "Partial: every request is answered with the result of the registered callback. Refuted: a call to a method that was only described (AddDescription) throws out of the session's handler and ends the process; a request that has looked up its callback calls it even after RemMethodCallback has returned."
  },
  {
   "property": "C32",
   "status": "partial",
   "theorems": [
    "c32_client_events",
    "c32_client_survives_partial",
    "c32_client_removed_callback_refuted",
    "c32_server_events",
    "c32_server_survives_partial",
    "c32_server_removed_callback_refuted"
   ],
   "note": "Refuted for servers and clients: RemEventCallback stores an empty function, the next event of that type calls it and the process ends. Proved: otherwise every event goes to the callback in force."
  },
  {
   "property": "C33",
   "status": "partial",
   "theorems": [
    "c33_events_alternate",
    "c33_is_connected",
    "c33_causes",
    "c33_loss_noticed",
    "c33_sessions_partial",
    "c33_new_service",
    "c33_no_reconnect_refuted",
    "c33_events_repeat_refuted"
   ],
   "note": "Refuted: a failed session stays in the client's table for ever, a server that comes back under the same key is never connected to again, and from then on every announcement raises a connect and every check a disconnect event. Proved: events alternate and have the stated causes, losses are noticed, new services get a session."
  },
  {
   "property": "C34",
   "status": "partial",
   "theorems": [
    "c34_v2_partial",
    "c34_v2_well_formed",
    "c34_v2_multicast",
    "c34_parse",
    "c34_serialize",
    "c34_v2_full_mask_refuted",
    "c34_v2_fixed_last_bit_refuted",
    "c34_v1_partial",
    "c34_v1_not_base_partial",
    "c34_v1_group_ignored_refuted",
    "c34_v1_malformed_refuted",
    "c34_local_mode",
    "c34_network_mode"
   ],
   "note": "Partial: with the default mask (and any mask that leaves the last bit of the group free) no topic is put on the registration address, all results are well formed multicast addresses of the group under the mask, and equal topics agree. Refuted for a full mask or one fixing the last bit (topics land on the registration address), and for V1, which ignores octets 2-4 of the group and makes malformed addresses of a one or two digit first octet."
  },
  {
   "property": "C35",
   "status": "partial",
   "theorems": [
    "c35_round_trip_partial",
    "c35_all_received_partial",
    "c35_accepted",
    "c35_rejected",
    "c35_keeps_listening_partial",
    "c35_reads_outside_refuted",
    "c35_deaf_refuted",
    "c35_deaf_after_error_refuted",
    "c35_long_name_refuted",
    "c35_name_size_ignored_refuted"
   ],
   "note": "Partial: every sample that fits is received as sent, every datagram not framed for this node is dropped, and reception goes on. Refuted: a short datagram or one without terminating zero is read beyond its end, a datagram that does not match or a socket error ends reception for good, names of 65535 bytes or more overflow the size field, the size of the name is not compared with the datagram."
  },
  {
   "property": "C36",
   "status": "partial",
   "theorems": [
    "c36_members_partial",
    "c36_subscriber_served_partial",
    "c36_no_stale_member_partial",
    "c36_turns_partial",
    "c36_local",
    "c36_failed_join_refuted",
    "c36_race_refuted"
   ],
   "note": "Partial: when joins succeed and layer calls do not overlap, the group is joined exactly while a subscription needs it. Refuted: a failed join is never retried while the subscription counts; two unsynchronised calls leave the group although a subscription remains."
  },
  {
   "property": "C37",
   "status": "partial",
   "theorems": [
    "c37_connected_partial",
    "c37_once",
    "c37_announced",
    "c37_other_topics",
    "c37_other_destroyed_refuted"
   ],
   "note": "Refuted: destroying one subscriber destroys the reader shared with all subscribers of the topic; the others receive nothing until a new subscriber of the topic is created. Partial: without destructions an announced publisher stays connected, once, and other topics do not matter."
  },
  {
   "property": "C38",
   "status": "partial",
   "theorems": [
    "c38_round_trip_partial",
    "c38_aligned",
    "c38_fits",
    "c38_inside",
    "c38_long_names_refuted",
    "c38_2gib_refuted",
    "c38_4gib_refuted",
    "c38_empty_name_refuted",
    "c38_short_refuted"
   ],
   "note": "Partial: every frame of a message below 2 GiB with non-empty names is received as sent, whatever came before, and every payload is aligned. Refuted at the limits: header over 65535 bytes (heap overflow in the sender), payload of 2 GiB (read outside) or 4 GiB (cut), empty names (names of the message before), short messages (read outside)."
  },
  {
   "property": "C39",
   "status": "partial",
   "theorems": [
    "c39_payload_round_trip_partial",
    "c39_payload_wire_format",
    "c39_payload_injective",
    "c39_any_bytes",
    "c39_payload_of_4gib_refuted",
    "c39_used_struct_keeps_payload_refuted",
    "c39_used_struct"
   ],
   "note": "nanopb's encoder and decoder are modelled byte for byte. Partial: round trip below 4 GiB, injectivity, wire format, totality and memory safety on any bytes. Refuted: from 4 GiB on the payload is written but not readable; read into a used struct an empty payload keeps the old one."
  },
  {
   "property": "C40",
   "status": "partial",
   "theorems": [
    "c40_request_round_trip_partial",
    "c40_response_round_trip_partial",
    "c40_request_wire_format",
    "c40_response_wire_format",
    "c40_any_bytes",
    "c40_request_of_4gib_refuted",
    "c40_response_of_4gib_refuted"
   ],
   "note": "Partial: round trip below 4 GiB. Refuted: from 4 GiB on they are written but not readable."
  },
  {
   "property": "C41",
   "status": "partial",
   "theorems": [
    "c41_registration_round_trip_partial",
    "c41_list_round_trip_partial",
    "c41_registration_wire_format",
    "c41_any_bytes",
    "c41_os_name_lost_refuted",
    "c41_process_id_lost_refuted",
    "c41_forwarding_loses_nothing",
    "c41_empty_list_refuted"
   ],
   "note": "Partial: below 4 GiB every transmitted part arrives. Refuted: the operating system name and the entity id of processes are not transmitted; an empty list is written as an empty buffer, which is rejected."
  },
  {
   "property": "C42",
   "status": "proved",
   "theorems": [
    "c42_subscriber",
    "c42_subscriber_gone",
    "c42_publisher",
    "c42_publisher_gone",
    "c42_nothing_else",
    "c42_announced"
   ],
   "note": "Proved for every history of creations, destructions (with repeated names) and registrations: each object's record of registrations is exactly the list of matching ones that arrived while it existed and the gate ran."
  },
  {
   "property": "C43",
   "status": "partial",
   "theorems": [
    "c43_every_subscriber",
    "c43_at_most_once",
    "c43_finishes",
    "c43_reader",
    "c43_own_topic",
    "c43_stopped",
    "c43_result_partial",
    "c43_result_refuted",
    "c43_serialized",
    "c43_serialized_only"
   ],
   "note": "Partial: every subscriber of the topic is offered the message exactly once and no other subscriber sees it; the serialized form reaches the same subscribers. The reported result is refuted: it is the result of the subscriber called last, so a message accepted by one subscriber and refused by the next is reported as not received."
  },
  {
   "property": "C44",
   "status": "partial",
   "theorems": [
    "c44_publishers",
    "c44_subscribers",
    "c44_services",
    "c44_clients",
    "c44_plain_ids",
    "c44_id_suffix_refuted",
    "c44_two_hosts_refuted",
    "c44_dropped_method_refuted"
   ],
   "note": "Partial: for every history the four listings show exactly the keys (name, number; name, method, number) whose latest sample is a registration within the timeout, with its data, once each; plain decimal ids are kept apart. Refuted where the key is too coarse: ids that only start with the same number, equal ids on different hosts, and methods a service no longer offers."
  },
  {
   "property": "C45",
   "status": "partial",
   "theorems": [
    "c45_survives_exactly",
    "c45_throws_exactly_partial",
    "c45_crash_refuted"
   ],
   "note": "Refuted: std::stoull of the entity id throws for an id without leading number or above 64 bits, nobody catches it; a message exists that every process with network communication applies. Proved: this is the only way the description gate fails (exact characterisation)."
  },
  {
   "property": "C46",
   "status": "partial",
   "theorems": [
    "c46_listing",
    "c46_own_entries_partial",
    "c46_hosts_refuted",
    "c46_hosts_withdraw_refuted",
    "c46_names_refuted",
    "c46_service_ids_refuted",
    "c46_filters_partial",
    "c46_stale_filter_refuted",
    "c46_case_filter_refuted",
    "c46_comma_filter_refuted"
   ],
   "note": "Refuted: the host is in no key, and names, ids and process ids are joined without separator, so different entities share an entry and withdraw each other; patterns of an earlier list stay in force when the filters are changed while on; patterns differing only in case are merged; a pattern containing a comma is cut up and the malformed piece terminates the process. Proved: for every history each listing shows exactly the labels whose latest accepted registration is alive, with its data and registration count; each entity has its own entry when no label is ambiguous; the filters are exact when changed while off."
  },
  {
   "property": "C47",
   "status": "partial",
   "theorems": [
    "c47_sinks",
    "c47_empty_message",
    "c47_current_level",
    "c47_fetched_once_partial",
    "c47_fetch_empties",
    "c47_delivered_partial",
    "c47_buffer_partial",
    "c47_needs_directory_refuted",
    "c47_disabled_sink_refuted"
   ],
   "note": "c47_sinks: for all histories whose starts find directory and file, all three sinks exactly by their filters, with the complete contents. c47_fetched_once_partial covers structured fetches (the serialized one by c47_buffer_partial: same messages unless the queue is empty, see C57). c47_delivered_partial needs a level other than none and less than 4 GiB. Refuted: a missing log directory silences console and network as well; a sink with enable=false is still used."
  },
  {
   "property": "C48",
   "status": "partial",
   "theorems": [
    "c48_round_trip_exactly",
    "c48_round_trip_refuted",
    "c48_split_partial",
    "c48_split_refuted"
   ],
   "note": "Partial: proved that the list is read back unchanged exactly if every argument with a tab, line feed etc. also has a space; splitCommandLine agrees with ToArgv for every line whose only blank is the space, every quoting and every limit. Refuted otherwise: ToCommandLine quotes for spaces only, ToArgv separates at every blank, splitCommandLine at spaces only."
  },
  {
   "property": "C49",
   "status": "proved",
   "theorems": [
    "c49_split",
    "c49_join"
   ],
   "note": "Proved as an equivalence with an inductive definition of the maximal runs; joining and splitting is the identity on non-empty delimiter-free parts."
  },
  {
   "property": "C50",
   "status": "partial",
   "theorems": [
    "c50_idempotent_partial",
    "c50_place_partial",
    "c50_absolute",
    "c50_windows_absolute",
    "c50_root",
    "c50_undefined_refuted",
    "c50_dot_refuted",
    "c50_combined_refuted"
   ],
   "note": "Partial: idempotence and preservation of the denoted place in Unix style (all strings for which cleaning is defined; the place for paths not starting with a dot component); names only and root kept in every style. Refuted: name/../ reads back() of an empty string; a leading dot is popped like a directory (./../x becomes x); in Combined style x/../C: becomes the absolute C: and then C:/."
  },
  {
   "property": "C51",
   "status": "partial",
   "theorems": [
    "c51_sent_in_order_at_most_once",
    "c51_completed_cycle_sends_everything",
    "c51_withdrawal_sent_on_shutdown_refuted"
   ],
   "note": "Proved: order, at most once, and a completed cycle sends everything handed over. Refuted: shutdown may complete without sending the process withdrawal (the thread checks the stop flag before the trigger)."
  },
  {
   "property": "C52",
   "status": "partial",
   "theorems": [
    "c52_mixed_queue_sizes_refuted"
   ],
   "note": "Refuted: a receiver configured with a smaller queue than the process that initialised the file reads outside its local buffer."
  },
  {
   "property": "C53",
   "status": "proved",
   "theorems": [
    "c53_user_callback_of_matching_kind",
    "c53_unknown_event_rejected"
   ],
   "note": "For every history of setting and removing callbacks."
  },
  {
   "property": "C54",
   "status": "partial",
   "theorems": [
    "c54_polling_every_action_delivers_exactly_once_partial",
    "c54_overwritten_list_refuted",
    "c54_last_list_of_ending_process_refuted",
    "c54_samples_applied_twice_refuted"
   ],
   "note": "Refuted: a second send before the poll overwrites the first, the last list of an ending process is hidden by its removal event, and with two or more messages per poll samples are applied repeatedly. Partial: exactly once and in order if every action is polled before the next."
  },
  {
   "property": "C55",
   "status": "partial",
   "theorems": [
    "c55_different_publishers_same_hash_refuted"
   ],
   "note": "Refuted: the xor/shift combination collides for any two topic ids whose string hashes agree in the lowest bit."
  },
  {
   "property": "C56",
   "status": "partial",
   "theorems": [
    "c56_counts_partial",
    "c56_counter_wraps_refuted"
   ],
   "note": "Partial: while less than 2^32 sets are outstanding; refuted beyond (the counter wraps)."
  },
  {
   "property": "C57",
   "status": "partial",
   "theorems": [
    "c57_log_round_trip_partial",
    "c57_log_list_round_trip_partial",
    "c57_monitoring_round_trip_partial",
    "c57_log_wire_format",
    "c57_any_bytes",
    "c57_empty_refuted"
   ],
   "note": "Partial: everything below 4 GiB except the empty ones; those are written as an empty buffer, which is rejected. A snapshot's topics must carry the direction of the list they are in and their layers no parameters (these are not transmitted)."
  },
  {
   "property": "C58",
   "status": "proved",
   "theorems": [
    "c58_payload_unknown_fields",
    "c58_registration_unknown_fields",
    "c58_registration_list_unknown_fields",
    "c58_request_unknown_fields",
    "c58_response_unknown_fields",
    "c58_log_unknown_fields",
    "c58_monitoring_unknown_fields",
    "c58_written_messages"
   ],
   "note": "For every message of the payload, registration, service, log and monitoring formats; the messages written today are covered by the same relation."
  },
  {
   "property": "C59",
   "status": "partial",
   "theorems": [
    "c59_one_at_a_time_partial",
    "c59_settled_partial",
    "c59_client_known",
    "c59_settles",
    "c59_handshake_hides_disconnect_refuted",
    "c59_next_client_not_reported_refuted",
    "c59_wrong_event_refuted",
    "c59_order_refuted",
    "c59_is_connected_partial",
    "c59_is_connected_in_handshake_refuted"
   ],
   "note": "Refuted in general (a session still in its handshake is counted, so the disconnect of the last client and the connect of the next can both go unreported; a handshake of one protocol version falsifies the event of the other; callbacks of two changes can run in the wrong order). Partial: exact when clients come and go one at a time; in any order the flags are right when everything has settled and no handshake was refused."
  },
  {
   "property": "C60",
   "status": "partial",
   "theorems": [
    "c60_topics",
    "c60_topic_names",
    "c60_methods_partial",
    "c60_response_lost_refuted",
    "c60_methods_disagree_refuted"
   ],
   "note": "Partial: proved for topics (best quality, smallest id among equals, both functions agree, names exact) and for methods as long as one live entry is best in both request and response. Refuted in general for methods: a worse entry replaces a better one and GetServices disagrees with GetServiceTypeNames."
  },
  {
   "property": "C61",
   "status": "partial",
   "theorems": [
    "c61_content",
    "c61_lines_partial",
    "c61_line_determines_partial",
    "c61_own_file",
    "c61_forged_line_refuted",
    "c61_zero_byte_refuted",
    "c61_restart_refuted"
   ],
   "note": "Content, lines and injectivity for all histories; partial because host and unit must have no bar and no text a line feed or zero byte. Refuted in general: a line feed forges a line, a zero byte cuts the message, a second start within the second empties the file."
  },
  {
   "property": "C62",
   "status": "partial",
   "theorems": [
    "c62_parse",
    "c62_default_file",
    "c62_yaml_refuted"
   ],
   "note": "c62_parse for all word lists, c62_default_file for all masks. Refuted: conversion to YAML adds \"all\" to every non-empty filter, so reading it back enables every level."
  },
  {
   "property": "C63",
   "status": "partial",
   "theorems": [
    "c63_replace_partial",
    "c63_replace_same",
    "c63_replace_empty_refuted",
    "c63_trim",
    "c63_trim_kept",
    "c63_escape",
    "c63_center"
   ],
   "note": "Partial only for Replace with an empty pattern, which never ends (refuted for any number of rounds); Trim, htmlEscape and CenterString for all strings, Replace as an equivalence for every non-empty pattern."
  },
  {
   "property": "C64",
   "status": "partial",
   "theorems": [
    "c64_round_trip_partial",
    "c64_blanks",
    "c64_last_empty_refuted",
    "c64_extra_part_refuted"
   ],
   "note": "Partial: all lists of parts and all escape characters other than the quote, quotes removed or kept. Refuted: a trailing empty part is dropped although a leading one is kept; with keep_empty an extra part appears for the empty string and after a trailing blank."
  },
  {
   "property": "C65",
   "status": "partial",
   "theorems": [
    "c65_expand_partial",
    "c65_unknown",
    "c65_backslash_refuted",
    "c65_unclosed_refuted"
   ],
   "note": "Partial: all templates of plain text (no dollar sign, no backslash), escaped dollars and the three notations, every environment; unknown variables leave every text without backslash unchanged. Refuted: a backslash cannot be escaped; an unclosed brace is swallowed."
  },
  {
   "property": "C66",
   "status": "partial",
   "theorems": [
    "c66_absolute_partial",
    "c66_equal_partial",
    "c66_root_refuted",
    "c66_backslash_refuted",
    "c66_file_name",
    "c66_base_name"
   ],
   "note": "Partial: base or working directory starting with exactly one slash, no backslash. Refuted: with the working directory / a relative path is joined to //p and its first component becomes a network host; a backslash in a Unix file name is taken for a separator because the base is cleaned in Combined style whatever the requested style."
  },
  {
   "property": "C67",
   "status": "partial",
   "theorems": [
    "c67_relative_exactly",
    "c67_relative_refuted"
   ],
   "note": "Refuted as stated; c67_relative_exactly says for all pairs of absolute paths exactly when it holds: the base is the root, or both have the first component in common and neither lies below the other (otherwise same_size stays 0)."
  },
  {
   "property": "C68",
   "status": "partial",
   "theorems": [
    "c68_make_path_partial",
    "c68_root_refuted"
   ],
   "note": "Partial: every absolute path but the root and every sound file system, Unix style. Refuted for the root directory, reported as failure."
  },
  {
   "property": "C69",
   "status": "proved",
   "theorems": [
    "c69_lives",
    "c69_order"
   ],
   "note": "For every history of calls and masks; the situations between two calls are finitely many and enumerated, histories by induction."
  },
  {
   "property": "C70",
   "status": "partial",
   "theorems": [
    "c70_initialized_partial",
    "c70_returns_partial",
    "c70_careful_partial",
    "c70_null_refuted",
    "c70_early_finalize_refuted",
    "c70_combination_refuted"
   ],
   "note": "Partial: histories in which no Finalize precedes its Initialize; for these the histories without null dereference are characterised exactly. Refuted otherwise: an early Finalize is answered 'already finalized' but counted; creating a publisher without the component, Initialize with a Configuration object older than the last Finalize, and printing the configuration without time synchronisation dereference null; IsInitialized never confirms a combination of components."
  },
  {
   "property": "C71",
   "status": "partial",
   "theorems": [
    "c71_ok_partial",
    "c71_answered_once_refuted",
    "c71_not_initialized_refuted"
   ],
   "note": "Partial: exact for the code's own notions (a context exists, a request is pending). Refuted: true before Initialize; a request is answered only once, later calls say true again."
  },
  {
   "property": "C72",
   "status": "proved",
   "theorems": [
    "c72_trigger",
    "c72_merged",
    "c72_after_stop",
    "c72_joined",
    "c72_stop_finishes",
    "c72_orderly_partial",
    "c72_terminates_refuted",
    "c72_restart_refuted"
   ],
   "note": "Every clause is a theorem: safety against termination under the three conditions of the statement (c72_orderly_partial), their necessity (c72_terminates_refuted), and that a thread started again never runs its callback (c72_restart_refuted)."
  },
  {
   "property": "C73",
   "status": "partial",
   "theorems": [
    "c73_no_drift_partial",
    "c73_set_back",
    "c73_bounded_partial",
    "c73_burst_refuted"
   ],
   "note": "Partial: for rounds in which the clock does not go back during the callback; the few instructions between two rounds are not covered by the error term in the code either. Refuted: bursts of callbacks after lateness or a clock step."
  },
  {
   "property": "C74",
   "status": "partial",
   "theorems": [
    "c74_measured_partial",
    "c74_constant",
    "c74_silence",
    "c74_alive",
    "c74_fits_exactly",
    "c74_same_time_refuted"
   ],
   "note": "Partial: ticks at strictly increasing clock readings; frequencies are exact fractions instead of doubles. Refuted: equal readings give the largest double and an undefined conversion."
  },
  {
   "property": "C75",
   "status": "proved",
   "theorems": [
    "c75_listed",
    "c75_count",
    "c75_stopped",
    "c75_no_new"
   ],
   "note": "All interleavings, addresses reused."
  },
  {
   "property": "C76",
   "status": "proved",
   "theorems": [
    "c76_quiet",
    "c76_finishes_exactly_partial",
    "c76_deadlock_refuted",
    "c76_self_refuted"
   ],
   "note": "Every clause is a theorem: completion is characterised exactly (c76_finishes_exactly_partial); the two hanging cases are runs from which no continuation leads out."
  },
  {
   "property": "C77",
   "status": "proved",
   "theorems": [
    "c77_accept_partial",
    "c77_next_client",
    "c77_closed_waits",
    "c77_late_refuted"
   ],
   "note": "Every clause is a theorem: all sessions but the one accepted and not yet handled at the time of closing (c77_accept_partial), and that one runs until its client leaves (c77_late_refuted)."
  },
  {
   "property": "C78",
   "status": "proved",
   "theorems": [
    "c78_progress_partial",
    "c78_starved_refuted"
   ],
   "note": "Every clause is a theorem. Calls without timeout; the other server always may answer."
  },
  {
   "property": "C79",
   "status": "proved",
   "theorems": [
    "c79_no_null_partial",
    "c79_null_refuted",
    "c79_answers_partial",
    "c79_status_partial",
    "c79_no_status",
    "c79_unstarted",
    "c79_other_module_refuted",
    "c79_balanced_partial",
    "c79_unbalanced_refuted",
    "c79_ignored_refuted",
    "c79_sleep_twice_refuted"
   ],
   "note": "Every clause is a theorem, the exceptions named in the statement being the refuted ones. The theorems with _partial carry the conditions of the statement: plugins with all functions, one module name per mode, one mode. The time functions ignore the plugin because ECAL_CORE_TIMEGATE is never defined."
  },
  {
   "property": "C80",
   "status": "proved",
   "theorems": [
    "c80_plain_settings",
    "c80_priorities",
    "c80_priorities_default_refuted",
    "c80_filters",
    "c80_filters_default_refuted",
    "c80_drop_key_refuted",
    "c80_all_or_nothing_refuted"
   ],
   "note": "Every plain setting, for every document and every conversion of scalars that is inverse to writing. The exceptions named in the statement are the refuted theorems: priorities emptied, sink filters cleared, drop key misspelt in decode, refused documents leave sections replaced."
  },
  {
   "property": "C81",
   "status": "partial",
   "theorems": [
    "c81_round_trip_partial",
    "c81_transport_layer_refuted",
    "c81_registration_layer_refuted",
    "c81_drop_refuted",
    "c81_filters_refuted",
    "c81_unknown_layers_refuted"
   ],
   "note": "Partial: values the structures can hold, the three layers only. Refuted for transport layer, registration layer, drop flag, log filters and unknown layers."
  },
  {
   "property": "C82",
   "status": "partial",
   "theorems": [
    "c82_commented_file_partial",
    "c82_tcp_refuted",
    "c82_drop_refuted",
    "c82_backslash_refuted",
    "c82_unknown_layers_refuted"
   ],
   "note": "Partial: texts without quote, backslash and line end. Refuted for the TCP flag of publishers, the drop flag, texts with a backslash and lists without a known layer. Of the escape sequences of YAML only those for quote and backslash are modelled."
  },
  {
   "property": "C83",
   "status": "proved",
   "theorems": [
    "c83_merge"
   ],
   "note": "For every second document that is a map without repeated keys."
  },
  {
   "property": "C84",
   "status": "partial",
   "theorems": [
    "c84_merge_into_partial",
    "c84_transport_kept",
    "c84_transport_layer_refuted",
    "c84_registration_layer_refuted",
    "c84_drop_and_filters_refuted"
   ],
   "note": "Partial: the settings that encode writes and decode reads, and the transport layer as a whole. Refuted for parts of the transport layer, registration layer, drop flag and log filters."
  },
  {
   "property": "C85",
   "status": "proved",
   "theorems": [
    "c85_constrained",
    "c85_accepted_is_quad",
    "c85_never_barred",
    "c85_decimal_accepted",
    "c85_decimal_read",
    "c85_hexadecimal_read_refuted"
   ],
   "note": "All integers and all strings. The exception named in the statement is the refuted theorem: ff.ff.ff.f0 is accepted as a mask and used as 0.0.0.0."
  },
  {
   "property": "C86",
   "status": "proved",
   "theorems": [
    "c86_first_existing_file",
    "c86_absolute_path_first_refuted",
    "c86_config_path_refuted"
   ],
   "note": "The order for every environment; the exceptions named in the statement are the refuted theorems."
  },
  {
   "property": "C87",
   "status": "proved",
   "theorems": [
    "c87_split_after_combine",
    "c87_combine_after_split"
   ],
   "note": "Exact conditions in both directions."
  },
  {
   "property": "C88",
   "status": "proved",
   "theorems": [
    "c88_buffer",
    "c88_alloc",
    "c88_freed",
    "c88_nothing",
    "c88_zero",
    "c88_zero_length_refuted",
    "c88_zero_length_overrun",
    "c88_huge_buffer",
    "c88_huge_alloc",
    "c88_getters"
   ],
   "note": "The statement in full, for texts up to 4 GiB: exact result below 2 GiB, overrun from 2 GiB on, length 0 shown to write beyond the announced length. Memory as blocks of cells, pointers to their first cell only."
  },
  {
   "property": "C89",
   "status": "proved",
   "theorems": [
    "c89_to_buffer",
    "c89_nothing",
    "c89_zero_refuted",
    "c89_alloc",
    "c89_both_one",
    "c89_both",
    "c89_both_empty",
    "c89_both_pointer_refuted",
    "c89_both_failed",
    "c89_both_null",
    "c89_call_failed",
    "c89_call",
    "c89_call_refuted"
   ],
   "note": "The statement in full; the reader behind it is the one of C08-C10."
  },
  {
   "property": "C90",
   "status": "proved",
   "theorems": [
    "c90_send",
    "c90_send_negative",
    "c90_ids",
    "c90_ids_outside",
    "c90_method",
    "c90_method_none",
    "c90_method_outside",
    "c90_answers"
   ],
   "note": "The statement in full. The sending function is arbitrary."
  },
  {
   "property": "C91",
   "status": "proved",
   "theorems": [
    "c91_one_thread",
    "c91_alone",
    "c91_shared_buffer",
    "c91_blocked",
    "c91_entry",
    "c91_nested_refuted"
   ],
   "note": "All interleavings; what the callbacks do apart from a shared buffer is left open."
  },
  {
   "property": "C92",
   "status": "partial",
   "theorems": [
    "c92_served_partial",
    "c92_received_partial",
    "c92_no_call_after_destruction_partial",
    "c92_registered_readers",
    "c92_deprecated_class_refuted",
    "c92_message_during_move_refuted",
    "c92_refused_callback_refuted",
    "c92_self_assignment_refuted"
   ],
   "note": "The program uses its objects from one thread, messages arrive at any time and also inside move constructors and destructors. Missing in the delivery claims: programs adding callbacks to objects without subscription, self-assignment, messages inside constructors and destructors (covered by the safety claim and the refutations)."
  },
  {
   "property": "C93",
   "status": "proved",
   "theorems": [
    "c93_decoding",
    "c93_information_stays",
    "c93_changed_type_refuted",
    "c93_error_callback_moves_refuted",
    "c93_other_topic_refuted"
   ],
   "note": "All histories; the type information is a number per topic, 0 standing for an empty one."
  },
  {
   "property": "C94",
   "status": "proved",
   "theorems": [
    "c94_sends",
    "c94_string",
    "c94_failed",
    "c94_first_subscriber_refuted",
    "c94_short_serializer_refuted"
   ],
   "note": "Serializers are arbitrary functions; CMsgPublisher and CMessagePublisher share the code path modelled."
  },
  {
   "property": "C95",
   "status": "proved",
   "theorems": [
    "c95_answers",
    "c95_destroy_withdraws_refuted",
    "c95_request_during_destruction_refuted",
    "c95_second_type_refuted",
    "c95_every_request",
    "c95_total",
    "c95_undefined",
    "c95_one_type",
    "c95_destruction"
   ],
   "note": "Services and their methods are oracles. Every answer in every program on one object, Destroy and Create of the base included; the exceptions named in the statement are the refuted theorems and the exact condition c95_undefined."
  },
  {
   "property": "C96",
   "status": "proved",
   "theorems": [
    "c96_nth_send_unique",
    "c96_udp_packet",
    "c96_tcp_packet",
    "c96_only_what_was_sent",
    "c96_only_what_was_sent_read",
    "c96_in_order_at_most_once",
    "c96_exactly_the_newest",
    "c96_in_order_all_delivered"
   ],
   "note": "Composition of the writer (Wr), the payload serialization and datagrams (Ser, Udp), the TCP frames (Tcp), the shared memory files and observers (Shm), the subscriber gate and the reader (Rd). ecaludp and tcp_pubsub are taken to hand over packets unchanged or not at all; the shared memory layer is any run of ShmModel in which payload writers succeed. Sends that overlap the start of a layer (C16) are not part of the calls."
  },
  {
   "property": "C97",
   "status": "proved",
   "theorems": [
    "c97_layers",
    "c97_at_most_once",
    "c97_answer",
    "c97_call_result",
    "c97_no_protocol_error",
    "c97_answer_possible"
   ],
   "note": "Composition of the client session (Cli), the frames of the protocol (Frm), the server (Srv) and the messages (Ser). A frame is put into its stream when writing starts, so a failed writing may have arrived. Not part of it: the client's search over several sessions and its time limits (C30), the legacy protocol."
  },
  {
   "property": "C98",
   "status": "proved",
   "theorems": [
    "c98_inserted",
    "c98_documented_partial",
    "c98_documented_refuted",
    "c98_erase_defined",
    "c98_erase_pieces",
    "c98_erase_partial",
    "c98_erase_missing_refuted",
    "c98_erase_undo_refuted",
    "c98_erase_letters_refuted",
    "c98_stars_partial",
    "c98_plain",
    "c98_two_indices_refuted",
    "c98_star_hidden_refuted"
   ],
   "note": "The contents of the set, the erasing and the acceptance of names with one index for all paths of well-formed steps; the exceptions named in the statement are the refuted theorems. std::regex_search and std::set are modelled for the one expression and the order used."
  },
  {
   "property": "C99",
   "status": "partial",
   "theorems": [
    "c99_values",
    "c99_allowed",
    "c99_once",
    "c99_order",
    "c99_filtered_partial",
    "c99_filtered_refuted",
    "c99_max_size"
   ],
   "note": "All messages and all acceptance functions. Partial: the connection with the include filter is proved for paths with an index in their first step only; the refuted theorem shows why."
  },
  {
   "property": "C100",
   "status": "proved",
   "theorems": [
    "c100_ends",
    "c100_unique",
    "c100_once",
    "c100_complete_partial",
    "c100_forward_refuted",
    "c100_service_refuted",
    "c100_cost_refuted"
   ],
   "note": "All worlds of files with acyclic imports. Completeness and order hold under the condition named in the statement (c100_complete_partial); the exceptions it names are the refuted theorems."
  },
  {
   "property": "C101",
   "status": "proved",
   "theorems": [
    "c101_right_type_partial",
    "c101_decodes_partial",
    "c101_described_partial",
    "c101_stable",
    "c101_no_crash",
    "c101_null_order",
    "c101_same_name_refuted",
    "c101_nested_refuted",
    "c101_changed_refuted",
    "c101_second_text_refuted",
    "c101_service_partial",
    "c101_service_refuted"
   ],
   "note": "All sets of files and histories. The right type is proved under the conditions named in the statement, and the exceptions it names are the refuted theorems. The descriptor pool refuses files for missing imports and clashing names only."
  },
  {
   "property": "C102",
   "status": "proved",
   "theorems": [
    "c102_always_defined",
    "c102_listed_is_real",
    "c102_listed_needs_subscriber",
    "c102_cycle_announces",
    "c102_announced_is_listed",
    "c102_silence",
    "c102_withdrawn",
    "c102_unheard",
    "c102_handshake",
    "c102_withdrawal_final_refuted",
    "c102_mutual_refuted",
    "c102_group_members_refuted"
   ],
   "note": "Composition of the writer's and reader's connection tables (ExpMap, Conn), the gates (Gate), the sample applier (Reg), serialization and datagrams (Ser, Udp). Operations of one process do not overlap (overlapping is the subject of C01-C06 and Conn). Every clause of the statement is a theorem; the exceptions it names are the refuted theorems."
  },
  {
   "property": "C103",
   "status": "proved",
   "theorems": [
    "c103_defined",
    "c103_no_dangling",
    "c103_announced_works",
    "c103_running_is_announced",
    "c103_created_is_announced",
    "c103_stays_announced",
    "c103_destroyed_is_gone",
    "c103_withdrawn",
    "c103_withdrawn_once",
    "c103_finalize_withdraws",
    "c103_never_announced_later",
    "c103_early_server_refuted",
    "c103_survivor_refuted",
    "c103_server_started_refuted",
    "c103_nameless_client_refuted"
   ],
   "note": "Uses LifeModel's traces of Initialize and Finalize; the objects are seen from one thread. Every clause of the statement is a theorem; the exceptions it names are the refuted theorems."
  },
  {
   "property": "C104",
   "status": "proved",
   "theorems": [
    "c104_success_is_true",
    "c104_never_loaded",
    "c104_complete",
    "c104_returns",
    "c104_clean",
    "c104_waits_in_vain",
    "c104_terminal_missing",
    "c104_terminal_arguments",
    "c104_terminal_used",
    "c104_parameters",
    "c104_arguments",
    "c104_without_lock_refuted",
    "c104_interrupted_refuted",
    "c104_zero_refuted",
    "c104_stuck_refuted",
    "c104_blocking_refuted",
    "c104_fifo_left_refuted"
   ],
   "note": "The fork/FIFO/lock protocol with and without terminal emulator; every system call may fail, reads and writes of the four bytes are whole. The process id of the grandchild is not reused. Every clause of the statement is a theorem; the exceptions it names are the refuted theorems."
  },
  {
   "property": "C105",
   "status": "proved",
   "theorems": [
    "c105_settings",
    "c105_ascends_partial",
    "c105_over",
    "c105_reached_partial",
    "c105_exact",
    "c105_duration",
    "c105_limit",
    "c105_no_abort_partial",
    "c105_abort_partial",
    "c105_gap_refuted",
    "c105_late_refuted",
    "c105_forever_refuted",
    "c105_two_setters_refuted",
    "c105_backwards_refuted",
    "c105_abort_refuted"
   ],
   "note": "Rates are fractions and exact before cutting to nanoseconds (doubles in the code). The class is not used elsewhere in the repository. The exceptions named in the statement are the refuted theorems."
  },
  {
   "property": "C106",
   "status": "proved",
   "theorems": [
    "c106_own_id_partial",
    "c106_id_exact",
    "c106_fork_refuted",
    "c106_threads_refuted",
    "c106_threads_partial",
    "c106_stays",
    "c106_truth",
    "c106_parameter",
    "c106_parameter_back_partial",
    "c106_parameter_back_refuted",
    "c106_task_refuted",
    "c106_task_line_partial",
    "c106_task_line_refuted",
    "c106_state",
    "c106_components_partial",
    "c106_components_refuted",
    "c106_same_key_partial",
    "c106_same_key_refuted",
    "c106_unit_derived",
    "c106_unit_given",
    "c106_unit_refuted",
    "c106_buffer",
    "c106_sample",
    "c106_farewell"
   ],
   "note": "Linux branches. The operating system's answers are arbitrary and may change at any time; calls of one process follow one another except for the id as text. The exceptions named in the statement are the refuted theorems."
  },
  {
   "property": "C107",
   "status": "proved",
   "theorems": [
    "c107_distinct_partial",
    "c107_opened_partial",
    "c107_reserved_refuted",
    "c107_nested_refuted",
    "c107_valid",
    "c107_domain_valid_partial",
    "c107_long_refuted",
    "c107_draw",
    "c107_draw_refuted",
    "c107_limit",
    "c107_base_refuted",
    "c107_clock_refuted",
    "c107_name",
    "c107_meet",
    "c107_failed_refuted"
   ],
   "note": "Names are built as in the code, character by character; shm_open is modelled as in the C library (leading slashes do not count, no inner slash, fewer than 255 characters). Who removes objects is left open: they may vanish at any time. The exceptions named in the statement are the refuted theorems: equal draws, reserved and nested domains, long domains, a file that cannot be made anew."
  },
  {
   "property": "C108",
   "status": "proved",
   "theorems": [
    "c108_json_right_partial",
    "c108_json_same_name_refuted",
    "c108_json_stable",
    "c108_json_changed_refuted",
    "c108_json_hidden_refuted",
    "c108_json_reflection",
    "c108_proto_answer",
    "c108_proto_garbage_refuted",
    "c108_capnp_first_refuted",
    "c108_capnp_later_partial",
    "c108_capnp_memory",
    "c108_capnp_memory_refuted",
    "c108_accounted",
    "c108_proto_survives",
    "c108_json_terminates_refuted",
    "c108_capnp_no_call_refuted",
    "c108_capnp_terminates_refuted",
    "c108_capnp_receive_refuted"
   ],
   "note": "All histories and all behaviours of the libraries for the bytes of messages. The exceptions named in the statement are the refuted theorems: pointers thrown instead of exceptions, the inverted test in the Cap'n Proto deserializer, types hidden by others of the same short name, growth of the builder. Schemas of several descriptors in one Cap'n Proto loader are covered for the failing first message only."
  },
  {
   "property": "C109",
   "status": "proved",
   "theorems": [
    "c109_flatbuffers_trip",
    "c109_flatbuffers_front",
    "c109_flatbuffers_reuse_refuted",
    "c109_flatbuffers_large_refuted",
    "c109_messagepack",
    "c109_messagepack_bounds",
    "c109_capnp_payload",
    "c109_capnp_newest",
    "c109_capnp_older",
    "c109_capnp_kept_refuted",
    "c109_capnp_cut",
    "c109_capnp_length_refuted",
    "c109_hold_partial",
    "c109_hold_safe",
    "c109_hold_empty",
    "c109_null_refuted",
    "c109_moved_builder",
    "c109_moved_builder_refuted"
   ],
   "note": "Exact for flatbuffers below 2 GiB and for programs that use only publishers that have a message, as the statement says; what it calls not true are the refuted theorems. Parsing and packing are oracles; what an exception of Cap'n Proto leaves in the builder is not modelled."
  },
  {
   "property": "C110",
   "status": "proved",
   "theorems": [
    "c110_answers",
    "c110_after_stop",
    "c110_quiet",
    "c110_one_at_a_time",
    "c110_safe",
    "c110_completes",
    "c110_alive",
    "c110_c_deadlock",
    "c110_c_stop_refuted",
    "c110_self_stop",
    "c110_self_stop_refuted",
    "c110_early_stop_refuted",
    "c110_both_stop_refuted",
    "c110_null_refuted"
   ],
   "note": "Sleeping takes any time (its length is C73), assertions are off. Every clause of the statement is a theorem; the exceptions it names are the refuted theorems. Liveness means that a continuation exists, not fairness of the scheduler."
  },
  {
   "property": "C111",
   "status": "proved",
   "theorems": [
    "c111_topic",
    "c111_topic_alloc",
    "c111_one_description",
    "c111_torn_refuted",
    "c111_zero_refuted",
    "c111_method",
    "c111_null",
    "c111_log",
    "c111_log_refines",
    "c111_log_small",
    "c111_log_lost_refuted",
    "c111_status_alloc",
    "c111_status_number",
    "c111_status_buffer_refuted",
    "c111_status_null_refuted"
   ],
   "note": "Texts below 2 GiB; what Time::GetStatus says is an oracle. Which of several descriptions of a method is chosen is C60. Every clause is a theorem; the exceptions named in the statement are the refuted theorems."
  },
  {
   "property": "C112",
   "status": "proved",
   "theorems": [
    "c112_progress",
    "c112_finishes",
    "c112_any_order",
    "c112_serial",
    "c112_between",
    "c112_changes",
    "c112_create_in_event_refuted",
    "c112_ask_in_disconnected_refuted",
    "c112_ask_in_connected_refuted",
    "c112_own_callback_refuted",
    "c112_cross_destroy_refuted",
    "c112_both_ways_refuted",
    "c112_finalize_refuted",
    "c112_customer_refuted"
   ],
   "note": "Functions are the trees of their lock scopes (longest paths, debug logging included); waiting for a thread is taking a lock that it holds while it works. Timed waits and the libraries underneath take no part; services, clients, timers and the end of the memory file pool are not included, nor are locks of the user. Every clause is a theorem; the situations named in the statement as hanging are the refuted theorems."
  },
  {
   "property": "C113",
   "status": "proved",
   "theorems": [
    "c113_progress",
    "c113_finishes",
    "c113_any_order",
    "c113_serial",
    "c113_between",
    "c113_changes",
    "c113_four_methods",
    "c113_methods_refuted",
    "c113_client_event_refuted",
    "c113_client_event_order_refuted",
    "c113_create_in_client_event_refuted",
    "c113_response_refuted",
    "c113_same_connection_refuted",
    "c113_four_refuted",
    "c113_both_ways_refuted",
    "c113_finalize_refuted"
   ],
   "note": "As C112; callbacks inside calls are nested to any depth. A blocking call without timeout waits for a free thread of the service library (or for all four) and for the queues of its connections; the other end of a connection answers or the connection breaks. A call with timeout ends by itself. Several mutexes of the service library are taken together. Every clause is a theorem; the situations named in the statement as hanging are the refuted theorems."
  },
  {
   "property": "C114",
   "status": "proved",
   "theorems": [
    "c114_always_defined",
    "c114_known_is_real",
    "c114_counted_is_real",
    "c114_session_is_right",
    "c114_cycle_announces",
    "c114_heard",
    "c114_known_stays",
    "c114_silence",
    "c114_disconnects_only",
    "c114_session_stays",
    "c114_call_targets",
    "c114_finds",
    "c114_key_distinct",
    "c114_ignored",
    "c114_deaf",
    "c114_silent_refuted",
    "c114_withdrawn_refuted",
    "c114_slow_refuted",
    "c114_lost_refuted",
    "c114_late_refuted",
    "c114_group_refuted",
    "c114_loopback_refuted",
    "c114_mute_refuted"
   ],
   "note": "Hypotheses: values fit their C++ types, no registration has 4 GiB, and where times matter the receiver's clock does not go back. The network hands any datagram ever sent to any process, any number of times. Operations of one process are atomic. Events of clients are C33; what happens on a session is left to the environment. The refuted theorems are the exceptions the statement names."
  },
  {
   "property": "C115",
   "status": "proved",
   "theorems": [
    "c115_whole_calls",
    "c115_reason",
    "c115_heard",
    "c115_once",
    "c115_each_process",
    "c115_by_name",
    "c115_all_local",
    "c115_core",
    "c115_one_call",
    "c115_early_refuted",
    "c115_again_refuted",
    "c115_null_refuted",
    "c115_fault_refuted",
    "c115_cleared_refuted",
    "c115_next_process_refuted",
    "c115_unit_name_refuted"
   ],
   "note": "The list of processes given by the monitoring is an argument; one thread of a process calls Ok at a time, while eCAL is initialised. A step is one system call or one critical section; files are numbered, since a name can be deleted and created again. c115_heard and c115_once ask that nobody is still creating the process's file (c115_cleared_refuted shows why). All clauses of the statement are theorems, the exceptions it names included."
  },
  {
   "property": "C116",
   "status": "proved",
   "theorems": [
    "c116_always_defined",
    "c116_cycle",
    "c116_seen",
    "c116_true",
    "c116_stays",
    "c116_once",
    "c116_ends",
    "c116_stops",
    "c116_gone",
    "c116_late_refuted",
    "c116_stale_refuted",
    "c116_twins_refuted",
    "c116_mute_refuted",
    "c116_group_refuted"
   ],
   "note": "Over UDP; operations of one process follow one another. The parts are those of C35, C46, C57 and C114. The exceptions named in the statement are the refuted theorems: datagrams that arrive late, older states, equal names and process ids on two hosts, servers without a port, host groups without network mode. The filters stay as configured."
  },
  {
   "property": "C117",
   "status": "proved",
   "theorems": [
    "c117_always_defined",
    "c117_discovery",
    "c117_host",
    "c117_layer_started",
    "c117_layer_reason",
    "c117_listed_reads",
    "c117_send",
    "c117_arrives",
    "c117_true_callback",
    "c117_true_read",
    "c117_in_order",
    "c117_whole_way",
    "c117_layer_stays_refuted",
    "c117_unheard_refuted",
    "c117_stranger_refuted"
   ],
   "note": "All clauses are theorems about the composition of the models of discovery, writer, packets, gates and readers; the three things that do not hold are named in the statement and refuted by concrete runs. Names, ids and payloads are of usual sizes (usual), registrations below 4 GiB (fits). That packets do reach the processes that listen is not part of it."
  },
  {
   "property": "C118",
   "status": "proved",
   "theorems": [
    "c118_observer",
    "c118_starts",
    "c118_renews",
    "c118_stays",
    "c118_hands",
    "c118_silence",
    "c118_recovers",
    "c118_in_vain",
    "c118_stopped",
    "c118_restart_refuted",
    "c118_leaving_refuted",
    "c118_stop_refuted"
   ],
   "note": "All clauses are theorems; the three exceptions are refuted theorems. What is in the files is C17-C24."
  },
  {
   "property": "C119",
   "status": "proved",
   "theorems": [
    "c119_exclusive",
    "c119_locked",
    "c119_shared",
    "c119_used",
    "c119_constant",
    "c119_at_end",
    "c119_classes",
    "c119_only",
    "c119_rule",
    "c119_publisher_refuted",
    "c119_subscriber_refuted",
    "c119_layers_refuted",
    "c119_services_refuted",
    "c119_globals_refuted",
    "c119_core",
    "c119_core_refuted"
   ],
   "note": "All clauses are theorems; the exceptions named in the statement are the refuted theorems, each with the two calls that meet. Conditions of the code are choices, so that some of the exceptions may need particular configurations. One publisher, subscriber, client and server stand for all; that an object removed from its gate is not found any more counts as a lock. Reading the members of an object being constructed is left out."
  },
  {
   "property": "C120",
   "status": "proved",
   "theorems": [
    "c120_discovery",
    "c120_sessions",
    "c120_open",
    "c120_connection",
    "c120_connects",
    "c120_same_server",
    "c120_call_asks",
    "c120_answer",
    "c120_no_phantom",
    "c120_at_most_once",
    "c120_possible",
    "c120_apart",
    "c120_in_line",
    "c120_from_start",
    "c120_never_again",
    "c120_reuse_refuted",
    "c120_lost_refuted"
   ],
   "note": "All clauses are theorems about the composition of the models of discovery (C111), connections (C97), client sessions and servers; the two things that do not hold are named in the statement and refuted by concrete runs. Values are what the C++ types hold and registrations, requests and answers are below 4 GiB (wsane, wfits). Legacy sessions (protocol 0) are not driven."
  },
  {
   "property": "C121",
   "status": "proved",
   "theorems": [
    "c121_defined",
    "c121_home",
    "c121_settings",
    "c121_logs",
    "c121_changes_logs",
    "c121_changes_settings",
    "c121_again_logs",
    "c121_again_settings",
    "c121_log_start",
    "c121_no_user_refuted",
    "c121_silent_refuted",
    "c121_file_refuted",
    "c121_empty_refuted"
   ],
   "note": "All clauses are theorems; what the statement calls not true are the refuted theorems. No symbolic links; Linux."
  },
  {
   "property": "C122",
   "status": "proved",
   "theorems": [
    "c122_one_at_a_time",
    "c122_order",
    "c122_bytes",
    "c122_answers",
    "c122_whole",
    "c122_own_answer",
    "c122_live",
    "c122_own_answer_refuted",
    "c122_shifted_refuted",
    "c122_empty_refuted"
   ],
   "note": "All clauses are theorems; what the statement calls not true are the refuted theorems. Answers are below 4 GiB (lfits). The session is connected from the start; of a lost connection only the client's side is modelled."
  }
 ]
}