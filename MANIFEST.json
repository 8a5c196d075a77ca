{
 "claims": [
  {
   "property": "C01",
   "status": "proved",
   "theorems": [
    "C01_vint_round_trip",
    "C01_vint_too_short",
    "C01_vint_length",
    "C01_vint_injective"
   ],
   "note": "for all 64-bit values and all buffers"
  },
  {
   "property": "C02",
   "status": "proved",
   "theorems": [
    "C02_vint_truncated",
    "C02_vint_reads_only_its_bytes"
   ],
   "note": "for all byte strings"
  },
  {
   "property": "C03",
   "status": "proved",
   "theorems": [
    "C03_dynamic_deque",
    "C03_dynamic_any_allocator",
    "C03_dynamic_no_spurious_failure"
   ],
   "note": "histories of total size below 2^63"
  },
  {
   "property": "C04",
   "status": "proved",
   "theorems": [
    "C04_static_ring_deque",
    "C04_static_blocks_disjoint",
    "C04_static_empty_accepts",
    "C04_static_asserts_refuted"
   ],
   "note": "release build; single requests and area below 2^60 bytes. The debug asserts of merge_front are false in plain use (refuted)."
  },
  {
   "property": "C05",
   "status": "proved",
   "theorems": [
    "C05_dynamic_accounting",
    "C05_static_accounting",
    "C05_limit_check_refuted"
   ],
   "note": "requests near 2^64 pass the limit test (refuted without the size hypothesis)"
  },
  {
   "property": "C06",
   "status": "proved",
   "theorems": [
    "C06_C07_bounded_queue",
    "C06_fifo"
   ],
   "note": "Histories by one thread at a time; default configuration; channel below 2^48 bytes."
  },
  {
   "property": "C07",
   "status": "proved",
   "theorems": [
    "C06_C07_bounded_queue",
    "C07_capacity"
   ],
   "note": "Exact capacity formula, refused sends invisible."
  },
  {
   "property": "C08",
   "status": "partial",
   "theorems": [
    "C08_delivery_partial",
    "C08_exclusive_partial",
    "C08_success_partial",
    "C08_origin_partial",
    "C08_fresh",
    "C08_lap_refuted",
    "C08_duplicate_refuted",
    "C08_duplicate_fair"
   ],
   "note": "False in full: lap ABA and duplicate delivery have witnesses. Proved for all fair schedules, any number of senders, any ring size."
  },
  {
   "property": "C09",
   "status": "partial",
   "theorems": [
    "C09_drain_partial",
    "C09_finished_kept_partial",
    "C08_delivery_partial",
    "C09_live_sender_refuted"
   ],
   "note": "Proved for fair schedules; a schedule where the skip hits a live sender is a witness against the full claim."
  },
  {
   "property": "C10",
   "status": "proved",
   "theorems": [
    "C10_recv_checked",
    "C10_recv_returns",
    "C10_cursor_refuted",
    "C10_concurrent_partial",
    "C10_concurrent_refuted"
   ],
   "note": "Any memory content; termination needs both cursors inside the node array, refuted otherwise."
  },
  {
   "property": "C11",
   "status": "proved",
   "theorems": [
    "C11_framing_round_trip",
    "C12_damaged_frames_isolated"
   ],
   "note": "Stream receiver with dynamic read buffers (the default). Messages below 2^31 bytes that the configured buffer can hold; any segmentation, any interleaving with empty reads and other connections' counters."
  },
  {
   "property": "C12",
   "status": "proved",
   "theorems": [
    "C12_damaged_frames_isolated"
   ],
   "note": "A frame whose checksum does not match is reported BAD_DATA, an oversize one INVALID_SIZE, and all other frames are delivered unchanged, while the configured error counts are not exceeded. Frame boundaries are intact: damage is to checksum or payload."
  },
  {
   "property": "C13",
   "status": "partial",
   "theorems": [
    "C13_hostile_stream_partial",
    "C13_window_inside",
    "C13_delivered_genuine",
    "C13_length_wrap_refuted"
   ],
   "note": "Copies and windows stay in their buffers and delivered messages are genuine for every hostile stream. The hash read is inside the received data except for announced lengths of at least 2^64-3072 (or 2^31 where the configuration allows such a block); the refutation gives a 14-byte stream that triggers it."
  },
  {
   "property": "C14",
   "status": "proved",
   "theorems": [
    "C14_send_order",
    "C14_sender_safe_partial",
    "C14_merge_out_of_memory_refuted",
    "C14_failed_send_refuted"
   ],
   "note": "Dynamic write buffers. The bytes handed to the transport are the frames of a prefix of the messages taken (success or WRITE_FAILED), in order. The sender is free of undefined behaviour if the merge allocation succeeds; it crashes otherwise. A send that returned WRITE_FAILED may still be transmitted."
  },
  {
   "property": "C15",
   "status": "proved",
   "theorems": [
    "C15_written_once",
    "C15_lost_callback_refuted",
    "C15_success_refuted"
   ],
   "note": "Reports are a prefix of the messages taken, each once, in order; complete whenever idle or closed provided uv_write never fails at once (otherwise refuted). Success is reported even when libuv reports a failed write (refuted)."
  },
  {
   "property": "C16",
   "status": "partial",
   "theorems": [
    "C16_address_round_trip",
    "C16_address_text",
    "C16_parse_invents_nothing",
    "C16_port_value",
    "C16_colon_host_refuted",
    "C16_separator_refuted"
   ],
   "note": "Round trip proved (with a port any host; without a port a host free of ':', else false). The separator is not checked, so rejoining the parts need not give the text (witness)."
  },
  {
   "property": "C17",
   "status": "partial",
   "theorems": [
    "C17_parse_total_partial",
    "C17_parse_throws_exactly",
    "C17_parse_throws_refuted"
   ],
   "note": "False: exact set of throwing texts proved; sscanf overflow of the port is undefined behaviour and excluded."
  },
  {
   "property": "C18",
   "status": "proved",
   "theorems": [
    "C18_nocase",
    "C18_by_scheme",
    "C18_relations"
   ],
   "note": ""
  },
  {
   "property": "C19",
   "status": "partial",
   "theorems": [
    "C19_range_semantics",
    "C19_static_is_child",
    "C19_wide_mask_refuted"
   ],
   "note": "Proved for every mask the constructor can handle (up to 30 bits); from 31 bits on the int shift is undefined (refutation)."
  },
  {
   "property": "C20",
   "status": "proved",
   "theorems": [
    "C20_merge_same_ids",
    "C20_merge_defined",
    "C20_endpoint_ids",
    "C20_merge_undefined_refuted"
   ],
   "note": "For every order std::sort may produce. Defined when the subnets hold fewer than 2^31 ids; two 30-bit siblings hit an undefined shift (refutation)."
  },
  {
   "property": "C21",
   "status": "partial",
   "theorems": [
    "C21_merged_disjoint_partial",
    "C21_merged_disjoint_refuted",
    "C21_duplicate_refuted"
   ],
   "note": "False for nested or repeated input (witnesses); proved for input without overlaps."
  },
  {
   "property": "C22",
   "status": "proved",
   "theorems": [
    "C22_contain_ranges",
    "C22_contain_confs",
    "C22_contain_id",
    "C22_child_within_parent",
    "C22_zero_refuted"
   ],
   "note": "Exact; a range starting at id 0 is never contained, not even in itself (witness)."
  },
  {
   "property": "C23",
   "status": "partial",
   "theorems": [
    "C23_C24_routing_table",
    "C23_created_endpoints",
    "C23_conflict_exact",
    "C23_nested_refuted",
    "C23_zero_refuted"
   ],
   "note": "Full refinement to a table of live endpoints for endpoints with non-overlapping subnets avoiding id 0; false otherwise (witnesses)."
  },
  {
   "property": "C24",
   "status": "partial",
   "theorems": [
    "C23_C24_routing_table",
    "C24_nested_refuted"
   ],
   "note": "Same hypothesis as C23; false for an endpoint with nested subnets (witness)."
  },
  {
   "property": "C25",
   "status": "proved",
   "theorems": [
    "C25_next_hop",
    "C25_own_subnets_never_up"
   ],
   "note": "For every reachable node in which every endpoint ever added announced separate address ranges one of which holds its id (settled), and every target; the hop, the message and the result code of send_data."
  },
  {
   "property": "C26",
   "status": "partial",
   "theorems": [
    "C26_requests",
    "C26_sent",
    "C26_responses_refuted",
    "C26_responses_run_refuted"
   ],
   "note": "Requests: forwarded at most ttl times, one copy, one delivery, for every network. Responses: refuted, they have no hop limit. The network is an over-approximation: every receipt happens in some reachable state of some node."
  },
  {
   "property": "C27",
   "status": "partial",
   "theorems": [
    "C27_never_back_partial",
    "C27_forwarded_unchanged",
    "C27_never_back_refuted"
   ],
   "note": "Proved for messages received on a connection that belongs to a registered peer with a non-zero id. On a listening memory or shared-memory channel the sender is not known and the message can be sent back to it (refuted with a witness)."
  },
  {
   "property": "C28",
   "status": "proved",
   "theorems": [
    "C28_delivery",
    "C28_route",
    "C28_roomy"
   ],
   "note": "For every tree of any size whose subnets nest, every pair of nodes, every content: send succeeds and each node on the way, in whatever state it is in as long as it is connected up in its place and its transports take messages, passes exactly one copy to the next; the target hands it over once. C26_requests adds that nothing is duplicated and contents stay the same. C28_case: a concrete tree of three reachable nodes meets the hypotheses."
  },
  {
   "property": "C29",
   "status": "proved",
   "theorems": [
    "C29_source_has_no_influence",
    "C29_source_shown"
   ],
   "note": "For every message and every connection bound to an endpoint with a non-zero id."
  },
  {
   "property": "C30",
   "status": "proved",
   "theorems": [
    "C30_no_admission_without_token",
    "C30_refused_message_changes_nothing",
    "C30_own_keys_accepted"
   ],
   "note": "Over whole histories (no endpoint is ever added) and per message (nothing is bound, added or marked); for every keyed hash."
  },
  {
   "property": "C31",
   "status": "partial",
   "theorems": [
    "C31_unregistered_data_ignored_partial",
    "C31_unregistered_data_ignored_refuted",
    "C31_no_registration_needed_refuted"
   ],
   "note": "Proved for socket connections bound to no endpoint and messages of the current protocol version. Refuted otherwise: an old-version request makes the node send a data response on another connection, and a data connection opened by the node itself needs no registration by the peer."
  },
  {
   "property": "C32",
   "status": "proved",
   "theorems": [
    "C32_command_needs_token",
    "C32_command_answered_once",
    "C32_answer_needs_token_refuted"
   ],
   "note": "Requests on a duplex socket connection. The refutation records that command responses are not authenticated."
  },
  {
   "property": "C33",
   "status": "partial",
   "theorems": [
    "C33_once_in_order_partial",
    "C33_commands_partial",
    "C33_never_nested_partial",
    "C33_defined_partial",
    "C33_delivered_partial",
    "C33_commands_starve_refuted",
    "C33_reset_in_callback_refuted",
    "C33_restart_in_callback_refuted",
    "C33_lost_in_reset_refuted",
    "C33_own_response_dropped_refuted"
   ],
   "note": "Re-entrant small-step model (any call from any callback). Proved for all histories in which reset is not called inside a callback; with such a reset the model reaches undefined behaviour and nested delivery (refuted theorems). Delivery theorem: one dispatch delivers everything waiting when that is below loop_times; loop_times = 1 starves commands (refuted)."
  },
  {
   "property": "C34",
   "status": "proved",
   "theorems": [
    "C34_up_then_down_once",
    "C34_notification_matches_state"
   ],
   "note": "All histories of calls and transport events of the node model; user callbacks do not call back into the node."
  },
  {
   "property": "C35",
   "status": "partial",
   "theorems": [
    "C35_added_before_removed_partial",
    "C35_alternate_single_range",
    "C35_routed_endpoints_are_reported",
    "C35_reported_endpoints_are_routed",
    "C35_alternate_refuted"
   ],
   "note": "Added is reported once and first, removed at least once before the object is forgotten and at most once per address range; the endpoints reported and not yet removed are exactly those routed to. Strict alternation is proved for endpoints with one range and refuted for two: reset reports the removal once per range."
  },
  {
   "property": "C36",
   "status": "partial",
   "theorems": [
    "C36_silent_removed_partial",
    "C36_silent_parent",
    "C36_silent_bound",
    "C36_answering_kept",
    "C36_answering_kept_partial",
    "C36_answer_clears"
   ],
   "note": "Silent: an endpoint from which nothing arrives is removed and reported after fault_tolerant + 2 ping rounds, whatever else happens. For the parent, which is pinged by its own timer, without further conditions (C36_silent_parent). For the others (C36_silent_removed_partial) if the address ranges are well-formed and the counter is within the limit when a round starts; without the latter there are at most fault_tolerant + 2 rounds before the removal (C36_silent_bound). Answering: over whole histories, an endpoint of which a message is handled between any two faults is removed only by a reset, a disconnect or for want of connections (C36_answering_kept); one round of an answered endpoint changes neither table nor counter, and the answer clears the record."
  },
  {
   "property": "C37",
   "status": "partial",
   "theorems": [
    "C37_terminates_partial",
    "C37_rounds_partial",
    "C37_idle_hangs",
    "C37_proc_returns_refuted"
   ],
   "note": "The full statement is false of the model: when two ping timers are due and the first endpoint has been without a data connection for longer than first_idle_timeout, proc never returns (C37_idle_hangs for every such state, C37_proc_returns_refuted gives a reachable one). Without such endpoints proc returns (C37_terminates_partial) after at most one round per due timer, and no due timer is left when the timer list is sorted (C37_rounds_partial)."
  },
  {
   "property": "C38",
   "status": "partial",
   "theorems": [
    "C38_no_overdue_partial",
    "C38_deadline_partial",
    "C38_new_deadline_partial",
    "C38_reported_partial",
    "C38_closed_partial",
    "C38_only_overdue",
    "C38_clock_set_back_refuted"
   ],
   "note": "Proved for every history in which start() is never given a time before an earlier one; a second start() with an earlier time keeps an overdue connection (C38_clock_set_back_refuted). The check also closes the other connections of an endpoint when it resets that endpoint (C38_only_overdue says exactly which). C38_reported_partial is for a proc() that finds no message waiting in a shared memory channel."
  },
  {
   "property": "C39",
   "status": "proved",
   "theorems": [
    "C39_messages_are_conserved",
    "C39_success",
    "C39_in_flight",
    "C39_started_covers_finished_refuted"
   ],
   "note": "In count and bytes, since the transport was last closed; in flight = accepted by the transport and not yet reported; what counts as succeeded on a stream is exactly what the transport reported as written. The refutation shows the hypothesis of C39_in_flight is needed: a refused write that is also reported is counted twice."
  },
  {
   "property": "C40",
   "status": "partial",
   "theorems": [
    "C40_data_connection_partial",
    "C40_data_connection_refuted"
   ],
   "note": "The connection chosen belongs to the peer, is established, respects the host restriction and no fitting data connection is faster; the control connection is used only if none fits. The process restriction of in-process memory connections is not checked by the code (refuted with a witness)."
  },
  {
   "property": "C41",
   "status": "partial",
   "theorems": [
    "C41_numbered_partial",
    "C41_path_unmapped_early_refuted",
    "C41_path_never_unmapped_refuted",
    "C41_attach_unchecked_refuted",
    "C41_path_early"
   ],
   "note": "Proved for regions named by a non-zero number, for every history of calls on any set of regions and every answer of the system except a failing shmat for that region, below 2^64 calls. False for regions named by a path: their record starts with count 0, so the last but one close unmaps them and a single open and close never does. A failing shmat is reported as success."
  },
  {
   "property": "C42",
   "status": "partial",
   "theorems": [
    "C42_size",
    "C42_travel",
    "C42_not_refused",
    "C42_large_ttl_refuted",
    "C42_memory_receiver_stuck",
    "C42_memory_receiver_refuted"
   ],
   "note": "Bound on the encoded size; holds at every hop for ttl up to 91 (the default is 16). Refuted for larger ttl and for receivers on memory channels, whose buffer is smaller than the limit for sending. Only data messages are encoded in the model."
  },
  {
   "property": "C43",
   "status": "proved",
   "theorems": [
    "C43_never_zero",
    "C43_no_repeat",
    "C43_node"
   ],
   "note": "For any number of threads and any order of their atomic increments; the node model's allocator is shown to follow the same rule."
  },
  {
   "property": "C44",
   "status": "partial",
   "theorems": [
    "C44_failure_is_true",
    "C44_downwards_partial",
    "C44_at_target",
    "C44_answered_once",
    "C44_one_response_refuted",
    "C44_success_means_delivered_refuted"
   ],
   "note": "Failure responses are true; at the target one delivery and one response; one response in all when every hop is responsible for the target. Refuted when a hop passes the message to a node outside its subnets."
  },
  {
   "property": "C45",
   "status": "partial",
   "theorems": [
    "C45_connect_partial",
    "C45_no_second_attempt",
    "C45_prefix_refuted",
    "C45_refused_refuted",
    "C45_failed_listen_refuted"
   ],
   "note": "A successful connect either starts an attempt at exactly that address or finds an unfinished entry whose address begins the requested one (full claim: is the requested one). Refuted: port 80 while port 8 is pending, any address after a refused mem: address, an address whose listen failed. Addresses whose scheme begins with mem or shm are left out of the positive theorem."
  },
  {
   "property": "C46",
   "status": "proved",
   "theorems": [
    "C46_bound_iff_held",
    "C46_losing_a_connection",
    "C46_disconnect"
   ],
   "note": "All reachable states of the node model; loss by the peer and by disconnect."
  },
  {
   "property": "C47",
   "status": "proved",
   "theorems": [
    "C47_static_capacity_refuted"
   ],
   "note": "the property is false of the code; refuted by a witness"
  },
  {
   "property": "C48",
   "status": "partial",
   "theorems": [
    "C48_announced_subnets_partial",
    "C48_announced_subnets_refuted"
   ],
   "note": "Proved when no merged subnet has prefix 0; false otherwise (witness)."
  },
  {
   "property": "C49",
   "status": "proved",
   "theorems": [
    "C49_chunking_irrelevant"
   ],
   "note": "For two runs that stay open."
  },
  {
   "property": "C50",
   "status": "partial",
   "theorems": [
    "C50_empty_reads_partial",
    "C50_empty_reads_refuted"
   ],
   "note": "Within the configured number of empty reads per channel they change nothing; the counter is per channel and never reset, so the 257th empty read closes a healthy connection."
  },
  {
   "property": "C51",
   "status": "proved",
   "theorems": [
    "C51_bad_peer_cut_off"
   ],
   "note": ""
  },
  {
   "property": "C52",
   "status": "proved",
   "theorems": [
    "C52_graceful_close_flushes"
   ],
   "note": "Dynamic write buffers."
  },
  {
   "property": "C53",
   "status": "proved",
   "theorems": [
    "C53_memory_stable"
   ],
   "note": "Dynamic write buffers."
  },
  {
   "property": "C54",
   "status": "proved",
   "theorems": [
    "C54_end_to_end"
   ],
   "note": "Dynamic write buffers."
  },
  {
   "property": "C55",
   "status": "proved",
   "theorems": [
    "C55_disconnect_closes"
   ],
   "note": "Dynamic write buffers."
  },
  {
   "property": "C56",
   "status": "partial",
   "theorems": [
    "C56_run_where_it_arrives",
    "C56_next_hop",
    "C56_command_target_refuted"
   ],
   "note": "A command goes to the next hop; the node it reaches runs it exactly once if it accepts it and answers at most once on the same connection. False as stated: the message carries no target, so a command for a node that is not a direct neighbour runs at the first hop."
  },
  {
   "property": "C57",
   "status": "partial",
   "theorems": [
    "C57_undefined_causes",
    "C57_undefined_partial",
    "C57_subnets_refuted",
    "C57_address_refuted",
    "C57_polled_refuted",
    "C57_parent_refuted",
    "C57_accept_refuted"
   ],
   "note": "Every undefined step is traced to one of five causes: an address that cannot be parsed, subnets spanning 2^31-2 ids or more, data on a polled memory channel, the work on a configured parent, or a connection the system could not accept (the accept callback stores through a null pointer); without these no history has any. False as stated: each cause has a witness history, two of them started by an unregistered peer. Kinds of undefined behaviour outside the model are listed in DESIGN.md."
  },
  {
   "property": "C58",
   "status": "proved",
   "theorems": [
    "C58_registration",
    "C58_child_accepted",
    "C58_own_id_refuted"
   ],
   "note": "C58_registration covers every request with a non-zero id on a stream connection; C58_child_accepted says which children are always accepted (one own block contains all their ids, own subnets as configured and not containing id 0). C58_own_id_refuted records a finding outside the statement: a peer that claims the id of the node itself is accepted as child, or with the same subnets as parent. Requests with id 0 and requests on connections already registered are not covered (see C31 for the latter)."
  },
  {
   "property": "C59",
   "status": "partial",
   "theorems": [
    "C59_at_most_once",
    "C59_refused",
    "C59_accepted",
    "C59_outstanding",
    "C59_codes",
    "C59_both_levels",
    "C59_bad_host_refuted"
   ],
   "note": "Proved for every history in which no disconnect rehashes the table of closing connections inside a disconnected callback (C61_rehash_refuted). The last sentence is false: the result of parsing the host is ignored and the channel listens on address 0 (C59_bad_host_refuted)."
  },
  {
   "property": "C60",
   "status": "partial",
   "theorems": [
    "C60_life",
    "C60_connected_alive_partial",
    "C60_usable",
    "C60_late_connected_refuted",
    "C60_received_after_disconnect_refuted"
   ],
   "note": "The order is proved (C60_life), for histories as in C59. The caller's connected callback finds the connection alive except when listen makes it before it returns, where it is false (C60_late_connected_refuted). Data received together with data whose callback disconnects is still delivered (C60_received_after_disconnect_refuted)."
  },
  {
   "property": "C61",
   "status": "partial",
   "theorems": [
    "C61_safe",
    "C61_abort",
    "C61_rehash_refuted"
   ],
   "note": "Proved unless a disconnect inside a disconnected callback makes the hash table of closing connections rehash; then an invalid iterator is erased (C61_rehash_refuted)."
  },
  {
   "property": "C62",
   "status": "partial",
   "theorems": [
    "C62_settled",
    "C62_progress",
    "C62_bounded",
    "C62_waits_for_peer_refuted"
   ],
   "note": "All proved but the last clause, for histories as in C59; a connection with a write the peer does not read keeps close waiting (C62_waits_for_peer_refuted). Incoming connections on a listener that is kept open by a write add two completions each to the bound."
  },
  {
   "property": "C63",
   "status": "partial",
   "theorems": [
    "C63_called_right",
    "C63_called",
    "C63_close_drops_callback_refuted",
    "C63_second_drops_first_refuted",
    "C63_inside_callback_refuted"
   ],
   "note": "Proved: a callback that is called is the last one asked for, called once, after both disconnected callbacks, and one is called unless the last disconnect gave none. False: a later disconnect, close or read error replaces the callback, and one given inside the callback is dropped."
  },
  {
   "property": "C64",
   "status": "partial",
   "theorems": [
    "C64_planned",
    "C64_contacted",
    "C64_before_start_refuted",
    "C64_first_refused_refuted",
    "C64_idle_retry_refuted"
   ],
   "note": "The timer is always set and bounded, and an expired timer makes proc call connect. Refuted: the timer survives reset and init, so a node that was not started again contacts its parent; before the node was up a refused attempt shuts it down instead of being retried; an attempt that failed at once blocks the next one."
  },
  {
   "property": "C65",
   "status": "proved",
   "theorems": [
    "C65_parent_first",
    "C65_parent_covers",
    "C65_accepted",
    "C65_stranger_refuted"
   ],
   "note": "Invariants over all histories. C65_stranger_refuted: the covering parent need not be the one at the configured address; any accepted peer that registers a range around the node's takes its place."
  },
  {
   "property": "C66",
   "status": "partial",
   "theorems": [
    "C66_stays_up",
    "C66_wrong_parent_refuted"
   ],
   "note": "Proved with the stated exception; for connections polled by proc every registration that is too narrow is excluded, whatever the address. Refuted without the exception: a peer at the address of the parent takes an active node down."
  },
  {
   "property": "C67",
   "status": "partial",
   "theorems": [
    "C67_layout",
    "C67_count",
    "C67_attach",
    "C67_short",
    "C67_crash",
    "C67_accepts",
    "C67_larger_refuted",
    "C67_no_nodes_refuted"
   ],
   "note": "Layout, attaching and crash points in program order are proved for every length; that an attached channel fits its buffer is false (refuted with witnesses)."
  },
  {
   "property": "C68",
   "status": "partial",
   "theorems": [
    "C68_cause",
    "C68_number",
    "C68_handled",
    "C68_innocent_refuted"
   ],
   "note": "All four reasons proved for every history; the last sentence is refuted: the faults of a replaced endpoint remove its successor with the same number."
  },
  {
   "property": "C69",
   "status": "partial",
   "theorems": [
    "C69_origin",
    "C69_history",
    "C69_stranger",
    "C69_memory_refuted",
    "C69_claim_refuted"
   ],
   "note": "The part about memory channels is false and refuted; the rest is proved for all histories."
  },
  {
   "property": "C70",
   "status": "proved",
   "theorems": [
    "C70_only_for_data",
    "C70_advice",
    "C70_offered"
   ],
   "note": "C70_advice and C70_offered are about one received message on a stream connection; C70_only_for_data covers every other call."
  },
  {
   "property": "C71",
   "status": "partial",
   "theorems": [
    "C71_introduction",
    "C71_child_joins",
    "C71_parent_joins",
    "C71_up_by_answer",
    "C71_up_by_parent",
    "C71_own_blocks",
    "C71_meet_child",
    "C71_meet_parent",
    "C71_meet_up",
    "C71_redial_refuted"
   ],
   "note": "Proved for blocks whose prefix is not 0 and for two nodes with arbitrary histories, as long as neither has computed a block with an undefined shift (C19). The condition that the node has not given up is not one the two nodes can ensure: a node that does not listen dials the address its parent announces, and if that fails before the answer has come it closes the working connection and shuts down (C71_redial_refuted)."
  },
  {
   "property": "C72",
   "status": "proved",
   "theorems": [
    "C72_never_fails",
    "C72_send_order",
    "C72_written_once",
    "C72_graceful_close_flushes",
    "C72_memory_stable",
    "C72_memory_stays",
    "C72_idle_send",
    "C72_end_to_end"
   ],
   "note": "order, reporting and flushing as in C14, C15, C52: no write failing to start where stated"
  },
  {
   "property": "C73",
   "status": "proved",
   "theorems": [
    "C73_never_fails",
    "C73_reaches_peer",
    "C73_idle_accepts",
    "C73_smaller_peer_refuted"
   ],
   "note": "Proved for msg_size below 2^30 and send_buffer_size below 2^60. The condition on the peer's msg_size is needed: one message larger than a smaller peer allows makes that peer drop the connection (C73_smaller_peer_refuted)."
  },
  {
   "property": "C74",
   "status": "proved",
   "theorems": [
    "C74_life_of_a_connection",
    "C74_open_iff"
   ],
   "note": "For every reachable state of the node model and every connection: announced at most once, used only between announcement and closing, closed at most once, untouched afterwards; the open transports are those announced and not closed. on_ping and on_pong, which name an endpoint and not a connection, and on_invalid_connection, which is also called for connections never opened, are not part of the statement. C74_case meets the hypotheses."
  },
  {
   "property": "C75",
   "status": "partial",
   "theorems": [
    "C75_disconnect",
    "C75_not_found",
    "C75_twice",
    "C75_state_refuted"
   ],
   "note": "Everything but the last sentence is proved. The last one is false: disconnecting from the parent leaves the state 'running' and the timer as they are (C75_state_refuted), while losing the parent in any other way sets 'lost parent' and plans the next attempt. Closing is stated for connections that are not already down."
  },
  {
   "property": "C76",
   "status": "partial",
   "theorems": [
    "C76_reset",
    "C76_inert",
    "C76_answers",
    "C76_during_refuted"
   ],
   "note": "Everything but the last sentence is proved. The last one is false (C76_during_refuted): a connect that is still pending is first reported invalid by the reset and then completes while the reset waits for it; the connection is announced as new, a registration is sent and then it is closed. That the channel makes no callbacks once it is released is part of the model of the transport."
  }
 ]
}