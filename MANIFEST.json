{
 "claims": [
  {
   "property": "C01",
   "status": "proved",
   "theorems": [
    "C01_h4_roundtrip",
    "C01_packetizer_roundtrip"
   ],
   "note": "Any list of well-formed packets of the five types, any split into reads bounded by BytesRequested, and the whole Send/OnDataReady path with arbitrary short reads."
  },
  {
   "property": "C02",
   "status": "proved",
   "theorems": [
    "C02_h4_progress",
    "C02_h4_memory_safe",
    "C02_h4_never_overreads"
   ],
   "note": "Progress and absence of abort in recovery mode, no out-of-bounds access in any mode, no over-read past the current packet."
  },
  {
   "property": "C03",
   "status": "proved",
   "theorems": [
    "C03_h4_resync_silent",
    "C03_h4_stream_semantics",
    "C03_h4_resync_delivers"
   ],
   "note": "Exact characterisation of the streams the parser accepts, including resynchronisation on the first reset sequence."
  },
  {
   "property": "C04",
   "status": "proved",
   "theorems": [
    "C04_h4_chunking"
   ],
   "note": "From every parser state."
  },
  {
   "property": "C05",
   "status": "partial",
   "theorems": [
    "C05_address_roundtrip",
    "C05_address_printed_form",
    "C05_address_text_injective",
    "C05_address_documented_accepted",
    "C05_address_alphabet_exact",
    "C05_address_accepted_exact",
    "C05_address_parsed_wf",
    "C05_address_packet_roundtrip",
    "C05_address_only_documented_refuted",
    "C05_address_failed_parse_preserves_refuted"
   ],
   "note": "Round trip and exact acceptance proved. \"Accepts only the documented form\" is false of the code (blanks and signs are accepted by strtol) and is refuted with a witness; so is the documented preservation of |to|."
  },
  {
   "property": "C06",
   "status": "proved",
   "theorems": [
    "C06_rpa_resolves_with_its_key",
    "C06_rpa_random_part",
    "C06_rpa_match_exact",
    "C06_rpa_other_addresses_untouched",
    "C06_rpa_resolution_exact",
    "C06_rpa_end_to_end",
    "C06_rpa_resolution_preserves_list"
   ],
   "note": "For any block cipher with 16-byte outputs and any random source."
  },
  {
   "property": "C07",
   "status": "proved",
   "theorems": [
    "C07_handles_unique",
    "C07_handles_in_range",
    "C07_creation_fresh",
    "C07_lookups_sound"
   ],
   "note": "Invariant over all histories of handler calls."
  },
  {
   "property": "C08",
   "status": "partial",
   "theorems": [
    "C08_allocation_terminates_partial",
    "C08_allocation_terminates_refuted"
   ],
   "note": "Terminates whenever fewer than 256 links of the type are live; false when the range is exhausted: the 257th creation loops forever."
  },
  {
   "property": "C09",
   "status": "proved",
   "theorems": [
    "C09_disconnect_exact",
    "C09_disconnect_abort_exact",
    "C09_reset_clears"
   ],
   "note": "Under the precondition documented in the code (no SCO link to the peer of the ACL link), shown to be exactly the abort condition."
  },
  {
   "property": "C10",
   "status": "proved",
   "theorems": [
    "C10_filter_preserves_lengths",
    "C10_filter_preserves_type"
   ],
   "note": "Any accepted byte string in any capture; every well-formed packet is accepted."
  },
  {
   "property": "C100",
   "status": "partial",
   "theorems": [
    "C100_same_parameters_partial",
    "C100_no_half_open_partial",
    "C100_accepted_then_open_partial",
    "C100_negotiated_partial",
    "C100_waits_for_the_host_only_partial",
    "C100_caller_waits_partial",
    "C100_answered_once_partial",
    "C100_voice",
    "C100_symmetric",
    "C100_witness",
    "C100_voice_witness",
    "C100_half_open_refuted",
    "C100_consent_refuted",
    "C100_outcome_refuted",
    "C100_second_call_refuted"
   ],
   "note": "Proved for all interleavings from a moment without synchronous connections, as long as the link stays open, no end has two synchronous connections with the other one, no packet that closes one is under way, Connection Complete is not masked and no host accepts its own request. Each of these limits is needed: two hosts that close a connection at the same time can get a half open one, a host that accepts its own request opens the connection without the consent of the other host, a link closed during the setup leaves the command without an outcome, and a request made while a connection is open can not be accepted. Voice is delivered in order, once, while both ends have the one connection."
  },
  {
   "property": "C101",
   "status": "partial",
   "theorems": [
    "C101_statuses",
    "C101_completed_in_time",
    "C101_accounted",
    "C101_packets_sent",
    "C101_packets_in_time",
    "C101_packets_spaced",
    "C101_packets_arrive",
    "C101_results",
    "C101_found_exactly",
    "C101_witness",
    "C101_short_inquiry",
    "C101_short_inquiry_refuted",
    "C101_responses_limit_refuted",
    "C101_result_after_cancel_refuted"
   ],
   "note": "Proved for all histories and all interleavings of two controllers (the results while the scan settings of the device found do not change and the result events are enabled). Refuted: an inquiry of length 1 never sends a packet and finds nothing, the number of responses is ignored, and answers are reported when no inquiry runs."
  },
  {
   "property": "C102",
   "status": "partial",
   "theorems": [
    "C102_fails_exactly_partial",
    "C102_calm_survives_partial",
    "C102_calm_witness",
    "C102_crossed_disconnection_refuted",
    "C102_two_calls_refuted",
    "C102_missing_page_refuted",
    "C102_eighth_link_refuted",
    "C102_many_calls_refuted",
    "C102_second_answer_refuted",
    "C102_broadcast_refuted"
   ],
   "note": "The property is false of the code. The exact condition of every failure of every call is proved (ten situations), for all histories in which no link has the all zero address, which is what is missing. Each kind is reached by a witness, three of them with two controllers and well behaved hosts only."
  },
  {
   "property": "C103",
   "status": "partial",
   "theorems": [
    "C103_arrives_in_order_partial",
    "C103_arrives_all_partial",
    "C103_any_bytes_partial",
    "C103_any_event_aborts_refuted",
    "C103_nothing_dropped",
    "C103_host_receives_partial",
    "C103_removed_once",
    "C103_closes",
    "C103_closed_quiet",
    "C103_pieces_witness",
    "C103_spacious_witness",
    "C103_closing_witness",
    "C103_event_aborts_refuted",
    "C103_error_aborts_refuted",
    "C103_refused_write_refuted",
    "C103_short_write_refuted",
    "C103_last_answer_refuted"
   ],
   "note": "The property is false of the code. Proved for all histories: with the packets that a host may send (commands, ACL, SCO, ISO) and no read error but a reset, the controller is given exactly those packets in order, all of them after the next tick; with writes that take the whole buffer the host receives exactly the packets sent; nothing is dropped before the host hangs up, and the device is then removed once. The process aborts exactly on an event packet of the host or a read error other than a reset; refused and short writes make the host read packets that were never sent; whether the last command of a host that ends its stream is answered depends on an old errno."
  },
  {
   "property": "C104",
   "status": "partial",
   "theorems": [
    "C104_answers_partial",
    "C104_answers_witness",
    "C104_truth_partial",
    "C104_known_features",
    "C104_closed_witness",
    "C104_subversion_refuted",
    "C104_read_phy",
    "C104_read_phy_witness",
    "C104_host_feature",
    "C104_features_kept",
    "C104_host_feature_witness",
    "C104_harmless"
   ],
   "note": "Proved for all interleavings of two controllers. The one false part: the packet that carries the version has 8 bits for the 16-bit subversion, so the host is told only its low octet (refuted by a run; the exact answers are proved for subversions below 256, and the low octet for all)."
  },
  {
   "property": "C105",
   "status": "partial",
   "theorems": [
    "C105_ledger",
    "C105_handles_distinct",
    "C105_ledger_witness",
    "C105_disconnecting",
    "C105_counted_partial",
    "C105_one_at_a_time",
    "C105_cancelling",
    "C105_waiting_witness",
    "C105_late_response_refuted",
    "C105_same_addresses_refuted"
   ],
   "note": "The list, the handles and Disconnect are proved for all histories. The count of the answers is proved for histories in which a response arrives only while the host waits for one. Without this it is false: cancelling does not forget the request under way, so a late response gives a second answer, a success after Unknown Connection Identifier (refuted). Nothing prevents a second connection between the same addresses (refuted)."
  },
  {
   "property": "C106",
   "status": "partial",
   "theorems": [
    "C106_agreement_partial",
    "C106_agreement_witness",
    "C106_two_ends_partial",
    "C106_one_link_partial",
    "C106_phone_only_partial",
    "C106_closing_witness",
    "C106_watch_only_partial",
    "C106_answered_witness",
    "C106_one_request",
    "C106_one_request_witness",
    "C106_half_open_refuted",
    "C106_mixed_up_refuted",
    "C106_forgotten_refuted",
    "C106_advertising_stops",
    "C106_advertising_stops_witness"
   ],
   "note": "One request for each attempt is proved without conditions. The agreement is proved for all runs in which the watch does not connect itself and the phone keeps the conditions of the statement (careful). Without them it is false of the code: a reset of the phone while its request is under way leaves a half-open connection; after a second connection between the same addresses a disconnection can end different connections on the two sides; a request that the watch ignores is never repeated although the watch advertises again. Two controllers that both connect are not covered."
  },
  {
   "property": "C107",
   "status": "partial",
   "theorems": [
    "C107_called",
    "C107_called_witness",
    "C107_unwatched",
    "C107_unwatched_witness",
    "C107_unwatched_inside_partial",
    "C107_unwatched_inside_witness",
    "C107_unwatched_inside_refuted",
    "C107_stopped",
    "C107_stopped_witness",
    "C107_notices_partial",
    "C107_notices_witness",
    "C107_one_thread",
    "C107_pipe_refuted",
    "C107_stop_returns_partial",
    "C107_silent_partial",
    "C107_no_abort_partial",
    "C107_no_abort_without_stop_partial",
    "C107_stop_witness",
    "C107_silent_witness",
    "C107_defined_partial",
    "C107_unfit_refuted",
    "C107_pipe_abort_refuted",
    "C107_pipe_hangs_refuted",
    "C107_watch_while_stopping_refuted",
    "C107_watch_after_stop_refuted",
    "C107_stray_byte_refuted",
    "C107_stale_refuted",
    "C107_forgotten_refuted",
    "C107_second_stop_refuted"
   ],
   "note": "Proved for all interleavings. The remaining hypotheses are needed, each is shown by a run: descriptors below 0 or from 1024 overflow the set of select(); when the pipe cannot be made later calls report success without a thread, and a stop aborts or hangs; watching from a callback during a stop, or after a stop from a callback, aborts; a descriptor watched during a stop is forgotten; a second stop returns while callbacks run; a callback that stops the watching of another descriptor does not prevent its call in the same round; a descriptor that is unwatched and watched again between select() and the collection is called without data; two first clients can write a byte to descriptor 0. The callback of the code runs as a sequence of steps of the manager; the thread is assumed to start."
  },
  {
   "property": "C108",
   "status": "partial",
   "theorems": [
    "C108_feature_selected",
    "C108_feature_kept",
    "C108_preset_features",
    "C108_features_witness",
    "C108_default_features",
    "C108_command_selected",
    "C108_command_kept",
    "C108_shared_only",
    "C108_exclusive_command",
    "C108_turned_off",
    "C108_turned_on_partial",
    "C108_commands_witness",
    "C108_shared_refuted",
    "C108_promised_in_vain_refuted",
    "C108_in_vain_witness",
    "C108_defaults_restated_partial",
    "C108_restated_witness",
    "C108_defaults_restated_refuted",
    "C108_alive_iff",
    "C108_preset_in_vain",
    "C108_preset_aborts_refuted",
    "C108_flags",
    "C108_sizes",
    "C108_phys",
    "C108_csr_off",
    "C108_android_off_partial",
    "C108_android_refuted",
    "C108_error_before_reset",
    "C108_quirks_witness",
    "C108_random_address_partial",
    "C108_random_address_refuted"
   ],
   "note": "Proved for all configurations, commands and states. False of the code, each with a run: two commands come with several features and obey the last switch only, so they can be refused although a feature is on; the switches turn on four commands that nothing implements, so in strict mode the host takes the controller down with them, and writing down a default is enough; the presets advertise 33 to 58 such commands (the exact lists are proved); one Android command is executed although Android is off; the default random address is lost by the first HCI Reset and is not set by a later configuration. Not modelled: the two consistency checks, which only log."
  },
  {
   "property": "C109",
   "status": "partial",
   "theorems": [
    "C109_ledger",
    "C109_answered_once",
    "C109_handles_distinct",
    "C109_ledger_witness",
    "C109_packet",
    "C109_packet_witness",
    "C109_events_come_from",
    "C109_report_known",
    "C109_requesting",
    "C109_cancelling",
    "C109_cancelling_witness",
    "C109_terminating",
    "C109_kept",
    "C109_trains_distinct_partial",
    "C109_same_train_refuted",
    "C109_lost_refuted",
    "C109_not_scanning_refuted",
    "C109_between_hosts",
    "C109_between_witness"
   ],
   "note": "proved for histories where Sync Established is not masked when it matters: the host knows exactly the synchronisations and the pending request; one answer for each request; least unused handles; what each packet makes the host hear (answer, or whole reports on the handles of the train and nothing else); status of each command; only Terminate and Reset end a synchronisation; data from host to host. One synchronisation for each train only when the periodic advertiser list is not used (partial). Refuted: with the list a second synchronisation with the same train is made and each packet is reported twice (le_controller.cc:1120-1135 checks only requests which name the train); the loss of a train is never told and its handle stays forever, LeSynchronization (le_controller.cc:6306) has no caller; no reports while scanning is disabled (le_controller.cc:5207)"
  },
  {
   "property": "C11",
   "status": "partial",
   "theorems": [
    "C11_payload_wiped",
    "C11_capture_hides_names_partial",
    "C11_capture_hides_all_names_partial",
    "C11_differing_captures_exist",
    "C11_gap_other_structures_kept_partial",
    "C11_gap_name_last_byte_survives",
    "C11_gap_name_hidden_refuted",
    "C11_gap_type_kept_refuted",
    "C11_created_sniffer_filters_refuted"
   ],
   "note": "Link payloads and names in fixed size fields are hidden (non-interference over whole captures). False for names in GAP data: the filter is off by one, so the last byte of every name survives and the type byte is overwritten. A sniffer made with Create drops its filter."
  },
  {
   "property": "C110",
   "status": "partial",
   "theorems": [
    "C110_servers",
    "C110_servers_kept",
    "C110_one_controller_per_host",
    "C110_own_controller",
    "C110_attach",
    "C110_waits_witness",
    "C110_hosts_witness",
    "C110_controller_kept",
    "C110_closed_because",
    "C110_closed_removed",
    "C110_taken_away_witness",
    "C110_link_added",
    "C110_link_witness",
    "C110_always_listens",
    "C110_busy_port",
    "C110_deaf_refuted",
    "C110_one_test_client",
    "C110_test_accept",
    "C110_test_reads",
    "C110_test_witness",
    "C110_answer_to_asker_partial",
    "C110_answers_arrive_partial",
    "C110_main_silent_partial",
    "C110_answer_to_another_refuted",
    "C110_answers_unasked_refuted",
    "C110_first_topology_partial",
    "C110_first_topology_witness",
    "C110_topology_spoiled_refuted",
    "C110_race_free_partial",
    "C110_link_race_refuted",
    "C110_sniffer_race_refuted",
    "C110_early_race_refuted",
    "C110_stops_because_partial",
    "C110_ended_iff",
    "C110_end_twice_refuted",
    "C110_client_gone_refuted",
    "C110_bad_number_refuted"
   ],
   "note": "Proved for every configuration, every result of binding and every interleaving: one controller per host with the configuration of its port, own controllers, what attaching and closing change, listening, one test client at a time, why the process stops and when it ends. Proved only for test clients that come after the setup and when no command of an earlier client is left (partial): answers reach the client that asked and nobody else, and the first topology. Proved only when moreover no link layer client comes and the sniffer is off (partial): no data race. False of the code, each with a run: a command left by a client that went away is answered to the next client; a test client that comes during the setup reads the answers to the commands of the simulator itself, and can keep a beacon off the air; adding a link layer client or the sniffer races with the tick; a second END_SIMULATION, a client that does not take what is written, and malformed commands stop the process; when the port of the test channel is taken the simulator starts without it."
  },
  {
   "property": "C111",
   "status": "proved",
   "theorems": [
    "C111_all_heard",
    "C111_heard_in_order",
    "C111_heard_so_far",
    "C111_always_ends",
    "C111_goes_on",
    "C111_strength",
    "C111_devices_discreet",
    "C111_heard_on_layer",
    "C111_ticked",
    "C111_received_later",
    "C111_worked",
    "C111_controller_sends",
    "C111_beacon_sends",
    "C111_witness",
    "C111_answers_endless_witness",
    "C111_answers_reversed_witness"
   ],
   "note": "exactly the right packets for all devices; the order and the end of each tick for devices that do not send from within a reception, which holds of all devices of the simulator (C111_devices_discreet). Two witnesses show that the channel itself promises neither: devices that answer at once can go on for ever, or reverse the packets of one sender for a third device. The topology is fixed during a history; packets that do not parse are left out."
  },
  {
   "property": "C112",
   "status": "proved",
   "theorems": [
    "C112_step_alike",
    "C112_same_packets",
    "C112_seen_alike",
    "C112_heard_exactly",
    "C112_masks_are_set",
    "C112_witness"
   ],
   "note": "Over the LE controller of LeHost.v (advertising, scanning, initiating, periodic sync, lists, connections); BR/EDR events, ISO and the events of the procedures on a connection are not part of it. Of the two events that announce a connection, which depend on each other's mask, the status, handle, role and parameters are compared, not the addresses."
  },
  {
   "property": "C113",
   "status": "partial",
   "theorems": [
    "C113_own_file",
    "C113_one_holder",
    "C113_closed_once",
    "C113_after_close",
    "C113_interrupted",
    "C113_own_callbacks_partial",
    "C113_connected_partial",
    "C113_connects_partial",
    "C113_files_witness",
    "C113_moved_witness",
    "C113_connected_witness",
    "C113_connects_witness",
    "C113_moved_callback_refuted",
    "C113_closed_watch_refuted",
    "C113_failed_watch_refuted",
    "C113_connected_stale_refuted",
    "C113_connects_zero_refuted",
    "C113_timeout_refuted"
   ],
   "note": "The files of the sockets, their single holder and single close are proved for all histories, moves included. The callbacks are proved for histories without a move (still h): the move constructor takes the watching flag but the callback keeps the address of the old object, so a watched socket that is moved and whose old object is destroyed makes the watcher call a dead object (C113_moved_callback_refuted); no caller in the repository moves a watched socket. Watching a closed socket passes -1 to FD_SET (C113_closed_watch_refuted), and a watch that failed because no thread could be started can never be repeated (C113_failed_watch_refuted). Connected() is exact but when the peer has closed and errno still says EAGAIN from an earlier call, where it says true (C113_connected_stale_refuted). A connect returns an open socket exactly for an established connection, but for descriptor 0, which is returned open and unconnected (C113_connects_zero_refuted), and each interruption starts the timeout again (C113_timeout_refuted: any number of polls of the full timeout). Calls on sockets do not overlap in this model; the schedules of the watcher thread are those of the watcher property. The name lookup and setsockopt results are not modelled beyond success and failure."
  },
  {
   "property": "C114",
   "status": "partial",
   "theorems": [
    "C114_paced",
    "C114_pace_bound",
    "C114_only_ticks",
    "C114_legacy_paced",
    "C114_train_paced",
    "C114_train_only_ticks",
    "C114_train_witness",
    "C114_pace_witness",
    "C114_legacy_pace_witness",
    "C114_catches_up_refuted",
    "C114_train_interval_refuted"
   ],
   "note": "All histories in which no other set and no legacy advertising is used (lone), or no set is enabled (legacy_only), so that every advertising packet is an event of the advertiser in question; packets do not name their set. The schedule is exact. The last sentence is false: the events of a set that late ticks missed are made up for by one packet at each following tick, so two packets of a set may be closer than its interval (C114_catches_up_refuted). The interval of periodic advertising, in units of 1.25 ms, is taken in units of 0.625 ms, so the packets of a train come twice as often as asked (C114_train_interval_refuted). Legacy advertising does not make up for missed events (C114_legacy_paced). Apart from the unit, the schedule of a train is proved for all histories in which periodic advertising is enabled for one set only (C114_train_paced); whether the set must be enabled for the train to go on is the subject of C77."
  },
  {
   "property": "C12",
   "status": "partial",
   "theorems": [
    "C12_same_name_same_pseudonym_everywhere",
    "C12_same_packet_same_output",
    "C12_output_ignores_later_packets",
    "C12_one_name_one_pseudonym_refuted"
   ],
   "note": "Proved for fixed size fields and for identical packets; false across field kinds."
  },
  {
   "property": "C13",
   "status": "proved",
   "theorems": [
    "C13_capture_reads_back",
    "C13_capture_never_blocks",
    "C13_filtered_capture_reads_back",
    "C13_time_stamp_refuted"
   ],
   "note": "With and without filter, for an independent reader. The sub-second time stamp (not part of the claim) is wrong and refuted."
  },
  {
   "property": "C14",
   "status": "proved",
   "theorems": [
    "C14_async_operations_return",
    "C14_async_identifiers_unique",
    "C14_async_runs_earliest_due",
    "C14_async_idle_only_if_nothing_due",
    "C14_async_one_shot_once",
    "C14_async_cancel_exact",
    "C14_async_cancelled_never_runs",
    "C14_async_not_lost"
   ],
   "note": "Invariant over all histories, including identifier wrap-around and exhaustion."
  },
  {
   "property": "C15",
   "status": "partial",
   "theorems": [
    "C15_cancel_prevents_runs_refuted",
    "C15_cancel_waits_for_callback_refuted",
    "C15_cancel_bounds_late_runs_partial",
    "C15_removal_excludes_running_partial"
   ],
   "note": "The documented guarantee is false: the worker releases the mutex between picking a task and locking it. At most one late run is proved, over all interleavings."
  },
  {
   "property": "C16",
   "status": "partial",
   "theorems": [
    "C16_no_deadlock_refuted",
    "C16_no_deadlock_with_sections_refuted",
    "C16_deadlock_shape_partial",
    "C16_no_deadlock_without_nested_calls_partial",
    "C16_no_deadlock_without_periodic_tasks_partial",
    "C16_no_deadlock_without_client_cancel_partial"
   ],
   "note": "False in general; all deadlocks are characterised and three sufficient conditions for their absence are proved."
  },
  {
   "property": "C17",
   "status": "partial",
   "theorems": [
    "C17_cancel_user_complete_partial",
    "C17_cancel_user_exact_without_cancel_partial",
    "C17_cancel_user_exact_until_wrap_partial",
    "C17_cancel_user_only_that_user_refuted"
   ],
   "note": "False after identifier wrap-around (stale identifiers); exact before."
  },
  {
   "property": "C18",
   "status": "partial",
   "theorems": [
    "C18_runs_in_time_order_partial",
    "C18_tick_complete_partial",
    "C18_due_task_runs_partial",
    "C18_one_shot_runs_once_partial",
    "C18_periodic_once_per_tick_partial",
    "C18_cancel_removes_partial",
    "C18_cancel_removes_only_partial",
    "C18_cancelled_never_runs_partial",
    "C18_schedule_event",
    "C18_identifiers_unique_partial",
    "C18_never_stuck",
    "C18_reachable",
    "C18_self_cancel_refuted",
    "C18_zero_period_refuted",
    "C18_identifiers_refuted"
   ],
   "note": "In every history with fewer than 2^32-1 tasks. A periodic task cannot cancel itself, a period of zero never ends the tick, and identifiers clash after 2^32 tasks."
  },
  {
   "property": "C19",
   "status": "partial",
   "theorems": [
    "C19_generated_address_unused_partial",
    "C19_generation_terminates",
    "C19_generated_address_unused_refuted"
   ],
   "note": "Proved for the default address reuse mode; false when address reuse is disabled. Termination is characterised exactly."
  },
  {
   "property": "C20",
   "status": "partial",
   "theorems": [
    "C20_delivery_exact",
    "C20_delivery_exactly_once_partial",
    "C20_delivery_once_refuted",
    "C20_delivery_once_two_layers_refuted",
    "C20_delivery_across_layers_refuted"
   ],
   "note": "Exact multiplicity over all topologies; exactly once only for one layer per type without double attachment."
  },
  {
   "property": "C21",
   "status": "partial",
   "theorems": [
    "C21_commands_decoded_partial",
    "C21_split_command_refuted"
   ],
   "note": "Every sequence of commands whose bytes have arrived is decoded exactly; false when a command arrives in pieces (short reads are only logged)."
  },
  {
   "property": "C22",
   "status": "partial",
   "theorems": [
    "C22_socket_lossless_partial",
    "C22_socket_whole_headers_partial",
    "C22_socket_overflow_exact",
    "C22_split_header_refuted",
    "C22_empty_packet_refuted"
   ],
   "note": "Lossless for every split of the payload; false when the 4 byte header is split (buffer overflow, exactly characterised) and for empty packets."
  },
  {
   "property": "C23",
   "status": "partial",
   "theorems": [
    "C23_families_exclusive_partial",
    "C23_legacy_first_reachable",
    "C23_extended_first_reachable",
    "C23_sync_refuted"
   ],
   "note": "Proved for every command the controller checks; the commands on existing sets and the periodic sync commands are not checked by the code."
  },
  {
   "property": "C24",
   "status": "proved",
   "theorems": [
    "C24_stored_is_history",
    "C24_legacy_stored_is_history",
    "C24_data_within_capacity",
    "C24_sent_is_stored",
    "C24_fragments_reachable",
    "C24_response_reachable"
   ],
   "note": "In every history: the stored data is computed from the history by a separate specification, and what any step sends is the stored data."
  },
  {
   "property": "C25",
   "status": "partial",
   "theorems": [
    "C25_enabled_ready",
    "C25_periodic_ready",
    "C25_enable_exact",
    "C25_enable_failed_partial",
    "C25_enable_atomic_refuted"
   ],
   "note": "Readiness and exactness hold in every history; a failing command can change the address of a set that is advertising."
  },
  {
   "property": "C26",
   "status": "proved",
   "theorems": [
    "C26_advertising_never_aborts"
   ],
   "note": "In every history and at every time."
  },
  {
   "property": "C27",
   "status": "partial",
   "theorems": [
    "C27_enabled_not_removed",
    "C27_enabled_not_cleared",
    "C27_removed_exactly",
    "C27_cleared_exactly",
    "C27_removable_reachable",
    "C27_periodic_refuted"
   ],
   "note": "False for sets whose periodic advertising is enabled but whose advertising is not: they can be removed."
  },
  {
   "property": "C28",
   "status": "partial",
   "theorems": [
    "C28_accept_list_bounded",
    "C28_accept_list_membership_partial",
    "C28_membership_defined",
    "C28_remove_refuted",
    "C28_frozen_while_in_use",
    "C28_kept_while_in_use",
    "C28_in_use_reachable"
   ],
   "note": "Size bound, exact membership (additions minus removals) and rejection while in use hold in every history; one removal does not undo two additions because duplicates are stored."
  },
  {
   "property": "C29",
   "status": "partial",
   "theorems": [
    "C29_resolving_list_bounded",
    "C29_identities_unique",
    "C29_keys_unique",
    "C29_contents_are_history",
    "C29_frozen_while_active_partial",
    "C29_kept_while_active",
    "C29_frozen_refuted",
    "C29_active_reachable"
   ],
   "note": "Uniqueness, bound and contents hold in every history; frozen while advertising, scanning or initiating, but not while a sync creation is pending."
  },
  {
   "property": "C30",
   "status": "proved",
   "theorems": [
    "C30_padv_bounded_no_duplicates",
    "C30_padv_membership",
    "C30_padv_frozen",
    "C30_padv_kept",
    "C30_pending_reachable"
   ],
   "note": "In every history."
  },
  {
   "property": "C31",
   "status": "partial",
   "theorems": [
    "C31_scan_parameters_valid",
    "C31_scan_parameters_as_given_partial",
    "C31_two_phys_reachable",
    "C31_coded_parameters_refuted"
   ],
   "note": "Validity holds in every history; the code takes the wrong element of the array for the coded PHY when the 2M PHY is included."
  },
  {
   "property": "C32",
   "status": "partial",
   "theorems": [
    "C32_connection_parameters_valid_partial",
    "C32_connection_parameters_as_given",
    "C32_two_phys_reachable",
    "C32_supervision_refuted"
   ],
   "note": "In every history; the code accepts a supervision timeout equal to the bound, which the specification excludes."
  },
  {
   "property": "C33",
   "status": "partial",
   "theorems": [
    "C33_parameters_agree_partial",
    "C33_agreement_witness",
    "C33_accepted_within_bounds_partial",
    "C33_accepted_witness",
    "C33_central_request_partial",
    "C33_always_refused",
    "C33_compatible_request_refuted",
    "C33_valid_request_refuted"
   ],
   "note": "Agreement holds for hosts that do not use the procedures refuted under C47. The code accepts a request only when it violates the supervision timeout, so a compatible request is refused, and it compares the interval and the timeout in different units, so a valid command is refused: both refuted by witnesses."
  },
  {
   "property": "C34",
   "status": "partial",
   "theorems": [
    "C34_phys_agree",
    "C34_events_tell",
    "C34_phys_allowed_partial",
    "C34_allowed_witness",
    "C34_other_connection_refuted",
    "C34_central_procedure",
    "C34_peripheral_procedure",
    "C34_procedure_witness"
   ],
   "note": "Agreement is proved for all histories. The choice is proved when LE Set PHY is not used on another connection of the central, whose preferences the code shares between connections (refuted by a witness)."
  },
  {
   "property": "C35",
   "status": "partial",
   "theorems": [
    "C35_page1_bits",
    "C35_le_bits",
    "C35_page2_bits_refuted",
    "C35_encryption_change_v2_refuted",
    "C35_undefined_exactly",
    "C35_notified_allowed",
    "C35_notified_reachable"
   ],
   "note": "For all masks and codes; every event of the second page is governed by the wrong bit. That the unmasked events are delivered is proved for the LE controller (C112_heard_exactly)."
  },
  {
   "property": "C36",
   "status": "proved",
   "theorems": [
    "C36_responses_exact",
    "C36_indices_unique",
    "C36_conditions_owned",
    "C36_conditions_bounded",
    "C36_conditions_stored",
    "C36_always_answered",
    "C36_reachable"
   ],
   "note": "All command histories and all capacities below 256. The filters have no effect on reports in the code."
  },
  {
   "property": "C37",
   "status": "partial",
   "theorems": [
    "C37_extended_partial",
    "C37_extended_found_partial",
    "C37_extended_witness",
    "C37_extended_found_witness",
    "C37_sco_partial",
    "C37_sco_witness",
    "C37_packet_types_refuted",
    "C37_latency_refuted",
    "C37_sco_bandwidth_refuted",
    "C37_is_extended",
    "C37_negotiated",
    "C37_negotiated_effort",
    "C37_negotiated_witness",
    "C37_any_bandwidth_refuted"
   ],
   "note": "Proved for the requests in which the bits of 3-EV3 and 2-EV5 are equal, since the code exchanges them (refuted otherwise). The latency check omits the interval, SCO links are not checked against the bandwidth, and a peer accepting any bandwidth is refused: each is refuted by a witness. Quotients are compared exactly."
  },
  {
   "property": "C38",
   "status": "proved",
   "theorems": [
    "C38_check_is_remainder",
    "C38_remainder_unique",
    "C38_bit_reversal",
    "C38_linear",
    "C38_header_accepted",
    "C38_errors_detected",
    "C38_other_address_detected",
    "C38_sample"
   ],
   "note": "For every UAP and header; the code even detects up to three errors in the 18 bits."
  },
  {
   "property": "C39",
   "status": "partial",
   "theorems": [
    "C39_enable_exact_partial",
    "C39_reported_ready",
    "C39_ready_witness",
    "C39_reported_witness",
    "C39_never_disabled",
    "C39_disable_refuted",
    "C39_ended_refuted",
    "C39_running_until_reconfigured"
   ],
   "note": "The statuses are exact in every history. A running procedure cannot be disabled by the host, and goes on when its end is reported: refuted by witnesses and by the theorem that no enable command changes it."
  },
  {
   "property": "C40",
   "status": "proved",
   "theorems": [
    "C40_no_dangling_layer",
    "C40_topology_exact",
    "C20_delivery_exact"
   ],
   "note": "Invariant over all topology histories; sending by a present device never touches a removed layer."
  },
  {
   "property": "C41",
   "status": "partial",
   "theorems": [
    "C41_timer_one_task_partial",
    "C41_timer_stops_refuted"
   ],
   "note": "False when StartTimer is called while running: the first periodic task is forgotten."
  },
  {
   "property": "C42",
   "status": "proved",
   "theorems": [
    "C42_response_read_back",
    "C42_long_response_cut",
    "C42_response_abort_exact"
   ],
   "note": "For an independent reader."
  },
  {
   "property": "C43",
   "status": "partial",
   "theorems": [
    "C43_command_outcomes_partial",
    "C43_command_always_answered_refuted"
   ],
   "note": "Exact characterisation of the commands that crash or are not answered."
  },
  {
   "property": "C44",
   "status": "partial",
   "theorems": [
    "C44_unknown_target_no_effect",
    "C44_command_does_what_it_says",
    "C44_decimal_names_device_partial",
    "C44_large_number_refuted",
    "C44_bad_address_refuted"
   ],
   "note": "Unknown targets have no effect; identifiers are truncated to 32 bits and a malformed address clears the address."
  },
  {
   "property": "C45",
   "status": "partial",
   "theorems": [
    "C45_request_only_when_initiating",
    "C45_request_as_given_partial",
    "C45_request_reachable",
    "C45_request_on_coded_refuted"
   ],
   "note": "Holds when the 1M PHY is among the initiating PHYs; otherwise the parameters of the 1M PHY, which the host did not give, are sent."
  },
  {
   "property": "C46",
   "status": "partial",
   "theorems": [
    "C46_capture_reads_back_partial",
    "C46_lower_address_part_refuted"
   ],
   "note": "LMP packets of more than 31 bytes are left out; the lower address part of the records is truncated to 8 bits by the code."
  },
  {
   "property": "C47",
   "status": "partial",
   "theorems": [
    "C47_parameters_agree_partial",
    "C47_agreement_witness",
    "C47_central_update_refuted"
   ],
   "note": "The central does not store the parameters of its own LE Connection Update: refuted by a witness; proved for the histories without it."
  },
  {
   "property": "C48",
   "status": "partial",
   "theorems": [
    "C48_encryption_agrees_partial",
    "C48_key_agreed_partial",
    "C48_witness",
    "C48_wrong_key_refuted",
    "C48_unasked_refuted"
   ],
   "note": "The peripheral turns encryption on with any key, and a reply nobody asked for encrypts the central: both refuted by witnesses; proved for hosts that use the same key and reply only at the peripheral."
  },
  {
   "property": "C49",
   "status": "proved",
   "theorems": [
    "C49_closed_together",
    "C49_told_once",
    "C49_nothing_afterwards",
    "C49_settles",
    "C49_never_aborts",
    "C49_witness"
   ],
   "note": "All histories of both hosts, all event masks. Supervision timeouts are not modelled."
  },
  {
   "property": "C50",
   "status": "partial",
   "theorems": [
    "C50_abort_only_without_parameters_partial",
    "C50_no_abort_refuted"
   ],
   "note": "The only aborts read absent procedure parameters when a procedure starts; the ordinary procedure reaches one (refuted by a witness)."
  },
  {
   "property": "C51",
   "status": "partial",
   "theorems": [
    "C51_create_exact_partial",
    "C51_configurations_valid_partial",
    "C51_sent_maps_valid",
    "C51_configuration_witness",
    "C51_fifteen_channels_refuted"
   ],
   "note": "In every history, except that the code counts the bit after the last channel as a channel: a configuration with fourteen channels is refuted by a witness."
  },
  {
   "property": "C52",
   "status": "partial",
   "theorems": [
    "C52_create_agreement_partial",
    "C52_supported_accepted_partial",
    "C52_other_modes_refused",
    "C52_supported_refuted",
    "C52_role_refuted",
    "C52_removal_never_agreed",
    "C52_removal_refuted",
    "C52_unsupported_refuted"
   ],
   "note": "Agreement after creation holds when the peer has the feature. Configurations in modes 2 and 3, and with the role of a peer that plays only one, are refused although supported; removals never reach the peer; the refusal of a peer without the feature names configuration 0: each refuted by a witness."
  },
  {
   "property": "C53",
   "status": "partial",
   "theorems": [
    "C53_security_reported_encrypted",
    "C53_start_accepted_secured_partial",
    "C53_central_refuted",
    "C53_refused_yet_reported_refuted"
   ],
   "note": "Proved for the peripheral; the central accepts a start once its host asked for the security procedure, and reports a start the peer refused: refuted by witnesses."
  },
  {
   "property": "C54",
   "status": "partial",
   "theorems": [
    "C54_sane_no_crash_partial",
    "C54_C64_streams_reachable",
    "C54_no_interval_refuted",
    "C54_empty_stream_refuted",
    "C54_large_stream_refuted",
    "C54_overflow_refuted",
    "C54_other_packet_refuted",
    "C54_error_code_refuted",
    "C54_removed_group_refuted"
   ],
   "note": "Refuted by seven witnesses; proved for all histories of inputs within the limits of the predicate sane."
  },
  {
   "property": "C55",
   "status": "proved",
   "theorems": [
    "C55_handles_in_range",
    "C55_one_handle_per_stream",
    "C55_requested_handle_new",
    "C55_configured_handles",
    "C54_C64_streams_reachable"
   ],
   "note": "In all histories in which no group or stream disappears while queued (orderly)."
  },
  {
   "property": "C56",
   "status": "partial",
   "theorems": [
    "C56_unknown_handle_exact_partial",
    "C56_handle_lost_refuted"
   ],
   "note": "A termination by the peer forgets the handle (refuted by a witness); proved: the handles known are exactly those of the specification streams, which has that exception."
  },
  {
   "property": "C57",
   "status": "proved",
   "theorems": [
    "C57_every_command_answered_once",
    "C54_C64_streams_reachable"
   ],
   "note": "All histories."
  },
  {
   "property": "C58",
   "status": "proved",
   "theorems": [
    "C58_frozen_group_refused",
    "C58_disallowed_only_if_frozen",
    "C58_group_removal",
    "C54_C64_streams_reachable"
   ],
   "note": "In all orderly histories. A reconfiguration that makes a two-way stream one-way is also disallowed."
  },
  {
   "property": "C59",
   "status": "partial",
   "theorems": [
    "C59_interval_fits_unframed_partial",
    "C59_framed_interval_partial",
    "C59_framed_latency_refuted",
    "C59_unchecked_overflow_refuted",
    "C62_exchange_reachable"
   ],
   "note": "Proved for unframed groups with overflow checks; with framing the latency is not checked, without overflow checks the interval may be wrong: both refuted by witnesses."
  },
  {
   "property": "C60",
   "status": "partial",
   "theorems": [
    "C60_established_when_down",
    "C60_up_streams_known",
    "C60_link_loss_reported",
    "C60_disconnected_twice_refuted",
    "C54_C64_streams_reachable"
   ],
   "note": "Establishment is proved; a disconnection while the request is pending reports a stream that was never established, twice (refuted by a witness)."
  },
  {
   "property": "C61",
   "status": "partial",
   "theorems": [
    "C61_creation_stuck_refuted"
   ],
   "note": "Disconnecting the stream being created leaves the others of the same command queued for ever: refuted, by a theorem over all continuations."
  },
  {
   "property": "C62",
   "status": "partial",
   "theorems": [
    "C62_request_carries_configuration",
    "C62_both_hosts_told_partial",
    "C62_exchange_reachable",
    "C62_peer_reachable",
    "C62_reports_differ_refuted",
    "C62_answer_misattributed_refuted"
   ],
   "note": "The exchange is proved for every pair of sane histories with one request pending on the link, with the reports related by exchanged: burst number, flush timeout and PDU size are swapped at the peripheral (refuted by a witness), and with two pending requests the answer may be taken for the wrong stream (refuted by a witness)."
  },
  {
   "property": "C63",
   "status": "partial",
   "theorems": [
    "C63_setup_path",
    "C63_remove_path",
    "C63_broadcast_setup_path",
    "C63_broadcast_remove_path",
    "C63_broadcast_reachable",
    "C63_unused_direction_refuted"
   ],
   "note": "Exact in all orderly histories; a path in an unused direction is accepted (refuted by a witness)."
  },
  {
   "property": "C64",
   "status": "proved",
   "theorems": [
    "C64_created_handles",
    "C64_accepted_creation_valid",
    "C64_no_advertising_set",
    "C64_groups_disjoint",
    "C64_valid_creation_accepted",
    "C64_termination",
    "C64_broadcast_reachable"
   ],
   "note": "All histories."
  },
  {
   "property": "C65",
   "status": "proved",
   "theorems": [
    "C65_reports_filtered",
    "C65_scan_requests_filtered",
    "C65_legacy_reported",
    "C65_extended_reported",
    "C65_response_reported",
    "C65_extended_reported_witness",
    "C65_legacy_reported_witness",
    "C65_allowed_reported_partial",
    "C65_witness",
    "C65_allowed_witness"
   ],
   "note": "All histories. Nothing else is reported or scanned; conversely every packet of a device that passes is reported, with either family of commands, directed or not, with or without the duplicate filter, if the event is not masked: whole (C65_extended_reported) and, when a directed packet is for a private address that is not known, as a directed report. C65_allowed_reported_partial is an earlier special case."
  },
  {
   "property": "C66",
   "status": "partial",
   "theorems": [
    "C66_requests_filtered",
    "C66_allowed_connected_partial",
    "C66_directed_connected",
    "C66_directed_connected_witness",
    "C66_identity_peer_ignored",
    "C66_witness",
    "C66_identity_peer_refuted"
   ],
   "note": "All histories. The converse is proved for undirected packets (C66_allowed_connected_partial) and for directed ones (C66_directed_connected; a packet for a public or random address is ignored when the own address of the command is a private one, as the specification asks). A peer named by its identity address type is never matched: refuted by a witness, and proved for all histories."
  },
  {
   "property": "C67",
   "status": "partial",
   "theorems": [
    "C67_scan_response_exact",
    "C67_scan_response_only_to_request",
    "C67_connection_exact",
    "C67_connection_only_on_request",
    "C67_witness",
    "C67_directed_scan_refuted"
   ],
   "note": "Exact, in all histories; but the target of a directed scannable set is the generated private address, so the peer itself is refused when it is in the resolving list (refuted by a witness)."
  },
  {
   "property": "C68",
   "status": "proved",
   "theorems": [
    "C68_creates_accounted",
    "C68_paging_ends",
    "C68_create_answered_once",
    "C68_witness"
   ],
   "note": "All histories with a monotone clock. The page timeout event ignores the event mask, the others honour it."
  },
  {
   "property": "C69",
   "status": "partial",
   "theorems": [
    "C69_one_link_per_peer",
    "C69_events_tell_links",
    "C69_announced_finished_partial",
    "C69_phantom_link_refuted",
    "C69_witness"
   ],
   "note": "Proved for every handle other than 0, and for handle 0 unless a peer refuses a page with the status 0: then the host is told of a link 0 that does not exist (refuted by a witness)."
  },
  {
   "property": "C70",
   "status": "proved",
   "theorems": [
    "C70_silent_links_end",
    "C70_live_links_stay",
    "C70_witness"
   ],
   "note": "All histories with a monotone clock."
  },
  {
   "property": "C71",
   "status": "partial",
   "theorems": [
    "C71_request_origin",
    "C71_page_requests_partial",
    "C71_accept_told",
    "C71_witness",
    "C71_rejected_request_stays",
    "C71_pending_request_blocks",
    "C71_deaf_after_reject_refuted"
   ],
   "note": "The request and its acceptance are proved. A refused request is never forgotten: until a reset or an acceptance of that device no other page is reported (proved over all continuations, refuted by a witness); if the host masks the event the page is ignored."
  },
  {
   "property": "C72",
   "status": "proved",
   "theorems": [
    "C72_data_in_order",
    "C72_data_flushed",
    "C72_data_received",
    "C72_witness"
   ],
   "note": "All histories that return; a packet with a broadcast flag aborts."
  },
  {
   "property": "C73",
   "status": "partial",
   "theorems": [
    "C73_advertising_stops",
    "C73_advertising_goes_on",
    "C73_events_limited",
    "C73_high_duty_stops",
    "C73_legacy_goes_on",
    "C73_duration_witness",
    "C73_events_witness",
    "C73_high_duty_witness",
    "C73_limit_status_refuted",
    "C73_alone_limited",
    "C73_alone_exact",
    "C73_alone_witness"
   ],
   "note": "All histories. The number of events is bounded in total over all sets. When one set advertises on its own, so that every advertising packet is an event of it, it sends exactly the number of packets asked for before a tick stops it ahead of its time, never more, and the host is told that number (C73_alone_exact); for several sets at once this is stated with the event counter of the set, as packets do not name their set. The event that tells that the number of events was reached has the status of a timeout (refuted by a witness)."
  },
  {
   "property": "C74",
   "status": "partial",
   "theorems": [
    "C74_scanning_stops",
    "C74_scanning_goes_on",
    "C74_witness",
    "C74_pause_refuted"
   ],
   "note": "All histories. With a period, scanning never pauses: refuted by a witness."
  },
  {
   "property": "C75",
   "status": "proved",
   "theorems": [
    "C75_no_duplicates",
    "C75_first_reported_partial",
    "C75_witness",
    "C65_legacy_reported",
    "C65_extended_reported",
    "C65_response_reported",
    "C65_legacy_reported_witness",
    "C65_extended_reported_witness"
   ],
   "note": "All histories. The first reception is reported for all packets and both families of commands (the theorems C65_legacy_reported, C65_extended_reported and C65_response_reported, whose condition is_new is that of this property); C75_first_reported_partial is an earlier special case."
  },
  {
   "property": "C76",
   "status": "proved",
   "theorems": [
    "C76_extended_report_whole",
    "C76_response_report_whole",
    "C76_periodic_report_whole",
    "C76_witness",
    "C76_periodic_witness"
   ],
   "note": "All states (all histories for periodic reports)."
  },
  {
   "property": "C77",
   "status": "proved",
   "theorems": [
    "C77_advertises_obeying",
    "C77_legacy_enable_chosen",
    "C77_set_enable_chosen",
    "C77_scans_obeying",
    "C77_connects_obeying",
    "C77_public_kept",
    "C77_adverts_witness",
    "C77_requests_witness",
    "C77_legacy_witness",
    "C77_trains_obeying",
    "C77_trains_witness"
   ],
   "note": "All histories, for every cipher returning 16 bytes. Periodic advertising packets go on with the address of the last enabling after the set is disabled (C77_trains_obeying)."
  },
  {
   "property": "C78",
   "status": "partial",
   "theorems": [
    "C78_private_key_partial",
    "C78_private_key_refuted",
    "C78_public_key_partial",
    "C78_public_key_refuted",
    "C78_inverse_found",
    "C78_private_key_witness",
    "C78_public_key_witness"
   ],
   "note": "The key is in range for all random bytes but the smallest negative number, which panics (refuted). The public key is the multiple of the base point, modulo the prime, if no two equal or opposite points are added on the way (smooth; a primality and group order argument is missing); but a coordinate may be negative and is then written in two complement: the key sent is not a point of the curve (refuted)."
  },
  {
   "property": "C79",
   "status": "partial",
   "theorems": [
    "C79_shared_secret_partial",
    "C79_agreement_refuted",
    "C79_no_panic_refuted",
    "C79_shared_secret_witness"
   ],
   "note": "Proved for public keys whose coordinates have a clear top bit and without degenerate additions. Refuted by witnesses: the secrets of two devices differ, an all zero public key panics."
  },
  {
   "property": "C80",
   "status": "partial",
   "theorems": [
    "C80_answered_in_order_partial",
    "C80_answered_with_success",
    "C80_no_link_refused",
    "C80_no_link_witness",
    "C80_pin_refusal_unanswered",
    "C80_pin_refusal_refuted",
    "C80_zero_address_refuted"
   ],
   "note": "All histories without a reset and without commands for the address zero. Refuted by witnesses: the refusal of a PIN is never answered (proved for all histories), and a command for the address zero is kept in a slot without a link."
  },
  {
   "property": "C81",
   "status": "partial",
   "theorems": [
    "C81_never_hangs",
    "C81_no_crash_partial",
    "C81_no_crash_witness",
    "C81_host_crashes_refuted",
    "C81_peer_crashes_refuted",
    "C81_key_crash_refuted"
   ],
   "note": "No hang in any history. No crash in the histories of the predicate peaceful (a host that waits for answers, packets with parameters in range, keys that work). Outside of it refuted by ten witnesses, most of them in the hands of the remote device."
  },
  {
   "property": "C82",
   "status": "proved",
   "theorems": [
    "C82_authentication",
    "C82_keyed_witness",
    "C82_legacy_witness"
   ],
   "note": "All sessions of a link in all orderly histories. The value of the answer to the challenge is not checked by the code and not in the statement."
  },
  {
   "property": "C83",
   "status": "partial",
   "theorems": [
    "C83_initiator_pairing",
    "C83_responder_pairing_partial",
    "C83_refusal_witness",
    "C83_missing_data_refuted"
   ],
   "note": "All sessions. The responder takes missing out of band data for a consent: refuted by a witness, the theorem leaves out that refusal."
  },
  {
   "property": "C84",
   "status": "proved",
   "theorems": [
    "C84_initiator_association",
    "C84_responder_association",
    "C84_key_exchange",
    "C84_comparison_witness",
    "C84_passkey_witness"
   ],
   "note": "All sessions of a link in all orderly histories."
  },
  {
   "property": "C85",
   "status": "partial",
   "theorems": [
    "C85_initiator_encryption",
    "C85_responder_encryption",
    "C85_features_answered",
    "C85_unwilling_peer_refuted",
    "C84_comparison_witness",
    "C84_passkey_witness"
   ],
   "note": "All sessions. The answers of the peer are ignored, and encryption is turned on even if the host wants it off: refuted by a witness."
  },
  {
   "property": "C86",
   "status": "partial",
   "theorems": [
    "C86_packets_in_order",
    "C86_link_deaf",
    "C86_declined_pairing_refuted",
    "C86_declined_packet_sent_witness"
   ],
   "note": "The order is proved for all sessions. A packet LMP_not_accepted_ext, sent by the peer when its host declines a pairing, stays at the front of the queue for ever: refuted by a witness, and proved for all continuations."
  },
  {
   "property": "C87",
   "status": "proved",
   "theorems": [
    "C87_one_answer_each",
    "C87_left_to_link_manager",
    "C87_left_to_link_layer",
    "C87_disconnect_routed",
    "C87_history_witness",
    "C87_delegation_witness",
    "C87_settled_once",
    "C87_settled_in_order",
    "C87_answers_due",
    "C87_data_settles_nothing",
    "C87_settled_witness"
   ],
   "note": "All histories, masks, quirks and inner behaviours: each command is settled exactly once, in order (C87_settled_once, C87_settled_in_order), and the answers are exactly those due (C87_answers_due); C87_one_answer_each says which commands are answered by the front end."
  },
  {
   "property": "C88",
   "status": "partial",
   "theorems": [
    "C88_alive_iff_partial",
    "C88_alive_witness",
    "C88_advertised_refuted",
    "C88_advertised_in_vain",
    "C88_features_page_refuted",
    "C88_contact_counter_refuted",
    "C88_contact_counter_witness"
   ],
   "note": "The exact condition under which the front end survives a command, given that the controllers behind do. Refuted: 33 advertised commands abort, pages from 3 on of the extended features are read outside of the array, Reset Failed Contact Counter is always taken for an invalid packet."
  },
  {
   "property": "C89",
   "status": "partial",
   "theorems": [
    "C89_mask_returned",
    "C89_hidden_refused",
    "C89_offered_executed_partial",
    "C89_mask_witness",
    "C89_any_hidden_refused",
    "C89_any_offered_executed_partial",
    "C89_no_position_refused",
    "C89_bit_governs_one",
    "C89_positions_witness",
    "C89_offered_unknown_refuted"
   ],
   "note": "For all masks and all positions; commands without a position are always refused, and each bit governs one command. Refuted: outside of strict mode a command that is offered and has no handler is answered with Unknown HCI Command. In strict mode it aborts instead (C88); there the second half is proved, for controllers behind that never return Unknown HCI Command."
  },
  {
   "property": "C90",
   "status": "partial",
   "theorems": [
    "C90_commands_returned",
    "C90_only_in_loopback",
    "C90_data_returned",
    "C90_voice_returned",
    "C90_mode_read",
    "C90_loopback_witness",
    "C90_long_command_refuted",
    "C90_leaving_announces_refuted"
   ],
   "note": "Proved for all histories. Refuted by witnesses: a command of 258 bytes is put whole in an event, whose length is one byte; Write Loopback Mode 0 announces two connections."
  },
  {
   "property": "C91",
   "status": "partial",
   "theorems": [
    "C91_read_back",
    "C91_write_answered",
    "C91_history_witness",
    "C91_write_witness",
    "C91_deaf_settings_refuted",
    "C91_inquiry_mode_refuted"
   ],
   "note": "Proved for the eleven settings that are kept. Five others always read the same value (proved for all states; refuted by a witness for the inquiry mode)."
  },
  {
   "property": "C92",
   "status": "proved",
   "theorems": [
    "C92_data_routed",
    "C92_voice_routed",
    "C92_data_witness"
   ],
   "note": "All histories and all well formed packets."
  },
  {
   "property": "C93",
   "status": "partial",
   "theorems": [
    "C93_in_order",
    "C93_all_sent",
    "C93_received",
    "C93_end_to_end",
    "C93_end_to_end_complete",
    "C93_witness",
    "C93_received_witness",
    "C93_end_to_end_witness",
    "C93_broadcast_flag_refuted"
   ],
   "note": "Order, uniqueness, content and credits are proved for all histories, and end to end for two controllers. Refuted: a packet of the host with a broadcast flag other than point to point aborts the controller."
  },
  {
   "property": "C94",
   "status": "partial",
   "theorems": [
    "C94_units_sent_partial",
    "C94_whole_units_sent",
    "C94_only_from_host",
    "C94_units_witness",
    "C94_whole_units_witness",
    "C94_fragments_refuted",
    "C94_streams_mixed_refuted",
    "C94_short_fragment_refuted",
    "C94_large_packet_aborts"
   ],
   "note": "Proved for units in one packet, and for fragmented units (not interleaved with those of other streams) if the fragments after the first have a header too; for all histories what is sent comes from a host packet of a known stream and respects its maximum. Refuted: fragments as specified lose four bytes each and give a wrong sequence number; fragments of two streams are mixed; a fragment shorter than four bytes, or a load larger than the advertised buffer, aborts."
  },
  {
   "property": "C95",
   "status": "partial",
   "theorems": [
    "C95_delivered_partial",
    "C95_pieces",
    "C95_strangers_ignored",
    "C95_witness",
    "C95_long_unit_refuted",
    "C95_wrong_stream_refuted",
    "C95_no_path_refuted"
   ],
   "note": "Proved for units of at most 4091 bytes when one stream has the identifiers; for larger ones the packets are given exactly. Refuted: a unit of 4092 bytes is cut in packets that all have a header, which a host cannot read; with two streams of the same identifiers on different links the wrong one may be named; data is delivered when no data path was set up."
  },
  {
   "property": "C96",
   "status": "partial",
   "theorems": [
    "C96_supervised",
    "C96_not_early",
    "C96_ends_only",
    "C96_both_told",
    "C96_open_witness",
    "C96_dropped_witness",
    "C96_long_timeout_refuted",
    "C96_short_timeout_refuted"
   ],
   "note": "Proved for all histories with three seconds as the timeout (not_early: when no two links are between the same addresses). Refuted: the timeout agreed for the link is ignored, both when it is longer and when it is shorter."
  },
  {
   "property": "C97",
   "status": "proved",
   "theorems": [
    "C97_idle_links_stay",
    "C97_witness"
   ],
   "note": "Two controllers with instant lossless delivery (C20), all interleavings."
  },
  {
   "property": "C98",
   "status": "partial",
   "theorems": [
    "C98_remote_answers_partial",
    "C98_witness",
    "C98_subversion_refuted",
    "C98_absent_page_refuted",
    "C98_absent_page_witness"
   ],
   "note": "Proved for all interleavings of two controllers, for controllers with three feature pages and an LMP subversion below 256, while the link stays open and the events are enabled. Refuted: the packet that carries the version has 8 bits for the 16-bit subversion, so the host is told only its low octet. Refuted: a request for a feature page the other controller does not have makes that controller read past the end of its array."
  },
  {
   "property": "C99",
   "status": "partial",
   "theorems": [
    "C99_roles_opposite_partial",
    "C99_roles_reported",
    "C99_switch_answered",
    "C99_acceptor_role",
    "C99_initiator_role",
    "C99_witness",
    "C99_new_link_witness",
    "C99_collision_refuted"
   ],
   "note": "Proved for all interleavings while both ends have the link: once opposite the roles are opposite again whenever no agreement is under way; the last reported role is the present one; every accepted command and every permitted request of the peer gives one event. The roles of a new link are given by the flags of each side. Refuted: if both hosts create a connection to each other and both accept, both ends become Peripheral for good."
  }
 ]
}