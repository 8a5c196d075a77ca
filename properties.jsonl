{"id": "C01", "title": "Variable-length integer round trip", "statement": "For every unsigned 64-bit value and every output buffer, write_vint either writes a self-delimiting encoding whose length it returns and which read_vint decodes to exactly the same value consuming exactly that many bytes whatever bytes follow, or (buffer too short) returns 0; it never touches more bytes than the buffer length and needs between 1 and 10 bytes.", "quantifier": "all 2^64 values, all buffer lengths, all trailing bytes", "why_tests_cant": "2^64 values times buffer sizes cannot be enumerated", "anchors": [{"file": "src/detail/buffer.cpp", "symbols": ["fn::read_vint", "fn::write_vint"]}]}
{"id": "C02", "title": "Incomplete integers are recognised as incomplete", "statement": "Every strict prefix of an encoding written by write_vint makes read_vint return 0 (need more data), and read_vint never reads past the given length nor returns more bytes than it was given.", "quantifier": "all values, all strict prefixes; all byte strings for the bound", "why_tests_cant": "receivers see arbitrary cut points of the byte stream", "anchors": [{"file": "src/detail/buffer.cpp", "symbols": ["fn::read_vint"]}]}
{"id": "C03", "title": "Dynamic buffer manager is a bounded double-ended queue", "statement": "In dynamic mode every sequence of push_back/push_front/pop_back/pop_front/merge_back/merge_front calls returns, and leaves in the manager, exactly what an abstract double-ended queue of byte blocks with the configured count and size limits would; data already stored is never altered by another operation.", "quantifier": "all operation sequences, all sizes and limits", "why_tests_cant": "histories are unbounded", "anchors": [{"file": "src/detail/buffer.cpp", "symbols": ["buffer_manager::dynamic_push_back", "buffer_manager::dynamic_push_front", "buffer_manager::dynamic_pop_back", "buffer_manager::dynamic_pop_front", "buffer_manager::dynamic_merge_back", "buffer_manager::dynamic_merge_front"]}]}
{"id": "C04", "title": "Static buffer manager: live blocks never overlap", "statement": "In static (ring) mode, after any sequence of operations, all live blocks lie inside the one allocated area, occupy pairwise disjoint address ranges and keep the order of the abstract double-ended queue; no operation writes to the memory of another live block.", "quantifier": "all operation sequences, all sizes, all limits", "why_tests_cant": "wrap-around positions depend on the full history", "anchors": [{"file": "src/detail/buffer.cpp", "symbols": ["buffer_manager::static_push_back", "buffer_manager::static_push_front", "buffer_manager::static_pop_back", "buffer_manager::static_pop_front", "buffer_manager::static_merge_back", "buffer_manager::static_merge_front", "buffer_manager::set_mode"]}]}
{"id": "C05", "title": "Buffer manager accounting and limits", "statement": "The reported cost number equals the number of live blocks and the reported cost size equals the sum of the unread bytes of all live blocks, in both modes after every operation sequence; with limits configured the number never exceeds its limit and a successful push or merge never leaves the size above its limit (as long as size arithmetic does not wrap).", "quantifier": "all operation sequences, all limits", "why_tests_cant": "accounting drift only shows up after particular long histories", "anchors": [{"file": "src/detail/buffer.cpp", "symbols": ["buffer_manager::push_back", "buffer_manager::push_front", "buffer_manager::merge_back", "buffer_manager::merge_front", "buffer_manager::pop_back", "buffer_manager::pop_front"]}]}
{"id": "C06", "title": "Memory channel is a FIFO queue (single-threaded histories)", "statement": "For every channel size and every sequence of mem_send/mem_recv calls on an initialised channel, mem_recv returns the bytes of the sent messages in order, exactly once, unmodified; NO_DATA is returned exactly when nothing is pending; a failed send leaves no trace; a receive into a too small buffer reports the required size and consumes nothing.", "quantifier": "all channel sizes, all message lengths and contents, all call sequences", "why_tests_cant": "ring positions and wrap-around combinations are unbounded", "anchors": [{"file": "src/channel_mem.cpp", "symbols": ["mem_init", "mem_send", "mem_send_real", "mem_recv", "mem_get_available_node_count"]}]}
{"id": "C07", "title": "Memory channel capacity is exact and never leaks", "statement": "mem_send refuses a message exactly when its length exceeds the limit or the free node count is insufficient; after all pending messages are received the full capacity is available again, so no history of sends and receives degrades the channel.", "quantifier": "all histories", "why_tests_cant": "a leak of one node per wrap-around needs unboundedly long runs to observe", "anchors": [{"file": "src/channel_mem.cpp", "symbols": ["mem_send_real", "mem_get_available_node_count", "mem_next_index"]}]}
{"id": "C08", "title": "Memory channel under concurrent writers", "statement": "For any number of concurrent writers and one reader, under every interleaving of their atomic steps in which no writer is overtaken by the write timeout, the messages received are exactly the successfully reserved messages in reservation order, each once, with exactly the bytes its sender supplied; writers never write to nodes reserved by another writer or not yet consumed by the reader.", "quantifier": "all interleavings of any number of threads", "why_tests_cant": "schedules are unbounded and not controllable from a test", "anchors": [{"file": "src/channel_mem.cpp", "symbols": ["mem_send_real", "mem_recv"]}]}
{"id": "C09", "title": "Crash of a writer in the middle of a send", "statement": "If a writer dies at any point after reserving space, the reader never delivers the unfinished message as data, and once the write timeout elapsed it skips only the dead writer's nodes: all messages reserved before and after it are still delivered unmodified and in order.", "quantifier": "every crash point, every surrounding history", "why_tests_cant": "crash points inside a send cannot be hit deterministically", "anchors": [{"file": "src/channel_mem.cpp", "symbols": ["mem_send_real", "mem_recv"]}]}
{"id": "C10", "title": "Memory channel receive never overruns and never delivers unchecked data", "statement": "Whatever the content of the shared memory (including corrupted or hostile headers), a mem_recv that returns SUCCESS wrote at most the caller's buffer length, and the stored checksum of that block equals the checksum of the bytes it delivered.", "quantifier": "all memory contents, all buffer lengths", "why_tests_cant": "the space of corrupted memories is unbounded", "anchors": [{"file": "src/channel_mem.cpp", "symbols": ["mem_recv", "mem_fast_check"]}]}
{"id": "C11", "title": "Stream framing round trip for any segmentation", "statement": "For any list of messages within the size limit, sent with io_stream_send and delivered to the peer in chunks cut at arbitrary positions by the transport and the allocation callback, the receive callback is invoked exactly once per message, in order, with status SUCCESS and exactly the sent bytes.", "quantifier": "all message lists, all chunkings", "why_tests_cant": "segmentation is chosen by the kernel", "anchors": [{"file": "src/channel_io_stream.cpp", "symbols": ["io_stream_on_recv_alloc_fn", "io_stream_on_recv_read_fn", "io_stream_send"]}]}
{"id": "C12", "title": "Corrupted frames are reported and do not desynchronise the stream", "statement": "If the payload of a frame is altered in transit so that its checksum no longer matches, the receive callback reports BAD_DATA for this frame and all later frames are still delivered unmodified.", "quantifier": "all message lists, all corruptions of a payload, all chunkings", "why_tests_cant": "corruptions times segmentations are unbounded", "anchors": [{"file": "src/channel_io_stream.cpp", "symbols": ["io_stream_on_recv_read_fn"]}]}
{"id": "C13", "title": "Stream receiver stays inside its buffers", "statement": "For every byte stream a peer may send and every chunking, the receiver never hands the transport a write window outside its head buffer or the current large-frame block, never reads outside received data, and rejects frames above the receive limit.", "quantifier": "all byte streams (hostile peers), all chunkings", "why_tests_cant": "hostile inputs are unbounded", "anchors": [{"file": "src/channel_io_stream.cpp", "symbols": ["io_stream_on_recv_alloc_fn", "io_stream_on_recv_read_fn"]}]}
{"id": "C14", "title": "Stream send queue preserves order and content", "statement": "The bytes handed to the transport are exactly the concatenation of the frames of the accepted messages in the order of the accepted io_stream_send calls, whatever merging of small blocks takes place and whenever the transport completes its writes.", "quantifier": "all send sequences, all completion schedules, all sizes", "why_tests_cant": "merging depends on sizes and completion timing", "anchors": [{"file": "src/channel_io_stream.cpp", "symbols": ["io_stream_try_write", "io_stream_on_written_fn", "io_stream_send"]}]}
{"id": "C15", "title": "Every accepted stream message is reported written exactly once", "statement": "For every schedule of sends, write completions, write failures and disconnects, the written callback is invoked at most once for each message accepted by io_stream_send, in order, with its payload size, and exactly once for all of them when the queue has drained.", "quantifier": "all schedules", "why_tests_cant": "depends on completion/close interleaving", "anchors": [{"file": "src/channel_io_stream.cpp", "symbols": ["io_stream_try_write", "io_stream_on_written_fn", "io_stream_disconnect_inner"]}]}
{"id": "C16", "title": "Address text round trip", "statement": "An address built by make_address from a scheme, host and port, and parsed again, yields the same scheme, host and port (for schemes and hosts free of the separator characters), and a successful parse never invents characters: rejoining the parts gives the parsed text.", "quantifier": "all strings", "why_tests_cant": "strings are unbounded", "anchors": [{"file": "src/channel_utility.cpp", "symbols": ["make_address"]}]}
{"id": "C17", "title": "Address parsing is total", "statement": "Parsing any character string as a channel address terminates with accept or reject; it never aborts the caller.", "quantifier": "all strings", "why_tests_cant": "strings are unbounded", "anchors": [{"file": "src/channel_utility.cpp", "symbols": ["make_address"]}]}
{"id": "C18", "title": "Address class predicates", "statement": "is_duplex_address / is_simplex_address / is_local_host_address / is_local_process_address depend only on the case-insensitive scheme; an address is never both simplex and duplex; a process-local address is also host-local and simplex.", "quantifier": "all strings", "why_tests_cant": "strings are unbounded", "anchors": [{"file": "src/channel_utility.cpp", "symbols": ["is_duplex_address", "is_simplex_address", "is_local_host_address", "is_local_process_address"]}]}
{"id": "C19", "title": "Subnet range semantics", "statement": "A subnet (prefix, mask bits) contains exactly the non-zero ids that agree with the prefix on all bits above the mask, for every prefix and every mask size a user can configure; the range endpoints are the least and greatest such ids.", "quantifier": "all 64-bit prefixes and ids, all mask sizes", "why_tests_cant": "2^64 ids", "anchors": [{"file": "src/atbus_endpoint.cpp", "symbols": ["endpoint_subnet_range::endpoint_subnet_range", "endpoint_subnet_range::contain", "endpoint::get_children_min_id", "endpoint::get_children_max_id"]}]}
{"id": "C20", "title": "Merging subnets preserves the covered id set", "statement": "For every list of subnets, merge_subnets leaves a list covering exactly the same ids, never longer than the input, in order of the upper ends of the subnets; an endpoint's subnets cover exactly its own id and its configured blocks.", "quantifier": "all subnet lists", "why_tests_cant": "lists are unbounded", "anchors": [{"file": "src/atbus_endpoint.cpp", "symbols": ["endpoint::merge_subnets"]}]}
{"id": "C21", "title": "Merged subnets are pairwise disjoint", "statement": "After merge_subnets no two remaining subnets overlap (the routing table relies on this).", "quantifier": "all subnet lists", "why_tests_cant": "lists are unbounded", "anchors": [{"file": "src/atbus_endpoint.cpp", "symbols": ["endpoint::merge_subnets"]}, {"file": "src/atbus_node.cpp", "symbols": ["node::insert_child", "node::find_route"]}]}
{"id": "C22", "title": "Subnet containment check is sound and complete", "statement": "endpoint::contain(parents, children) answers true exactly when every child subnet lies inside one parent subnet; in that case every id routed to a child belongs to the parent.", "quantifier": "all subnet lists", "why_tests_cant": "lists are unbounded", "anchors": [{"file": "src/atbus_endpoint.cpp", "symbols": ["endpoint::contain"]}]}
{"id": "C23", "title": "Routing table never holds overlapping subnets of different endpoints", "statement": "After any history of endpoint registrations and removals, the subnets of two different registered endpoints are disjoint; a registration is refused exactly when it would break this.", "quantifier": "all histories of add_endpoint/remove_endpoint", "why_tests_cant": "histories are unbounded", "anchors": [{"file": "src/atbus_node.cpp", "symbols": ["node::check_conflict", "node::insert_child", "node::remove_child", "node::add_endpoint"]}]}
{"id": "C24", "title": "Route lookup finds the responsible endpoint", "statement": "For every reachable routing table, looking up an id returns the endpoint one of whose subnets contains it, if there is one, and nothing otherwise.", "quantifier": "all routing table histories, all ids", "why_tests_cant": "histories and ids are unbounded", "anchors": [{"file": "src/atbus_node.cpp", "symbols": ["node::find_route", "node::get_endpoint"]}]}
{"id": "C25", "title": "Next-hop choice", "statement": "For a target different from the node itself, the next hop is the parent when the target is the parent, else the registered endpoint whose subnets contain the target, else (target outside the own subnets) the parent; targets inside the own subnets are never sent to the parent; a send to an unreachable id fails with INVALID_ID or NO_CONNECTION and transmits nothing.", "quantifier": "all node states, all ids", "why_tests_cant": "state space is unbounded", "anchors": [{"file": "src/atbus_node.cpp", "symbols": ["node::get_remote_channel", "node::send_msg"]}]}
{"id": "C26", "title": "Forwarding terminates", "statement": "In every network, whatever its topology and routing tables (including cyclic misconfiguration), a data request is forwarded at most ttl times; the same holds for the failure/receipt response it causes.", "quantifier": "all networks, all routing tables, all messages", "why_tests_cant": "topologies are unbounded", "anchors": [{"file": "src/atbus_msg_handler.cpp", "symbols": ["on_recv_data_transfer_req", "on_recv_data_transfer_rsp", "send_transfer_rsp"]}]}
{"id": "C27", "title": "A message is never bounced to the neighbour it came from", "statement": "When a node forwards a data message it never selects the directly connected node the message was received from.", "quantifier": "all node states, all messages", "why_tests_cant": "state space is unbounded", "anchors": [{"file": "src/atbus_msg_handler.cpp", "symbols": ["forward_data_message"]}]}
{"id": "C28", "title": "Tree delivery", "statement": "In a fully connected-up tree of nodes whose subnets nest as required by registration, a message sent from any node to any other node is handed to the receive callback of exactly the target node, exactly once, with unmodified content, type, sequence and original sender id, provided the path is not longer than the ttl.", "quantifier": "all trees of any size, all source/target pairs, all contents", "why_tests_cant": "number of trees is unbounded", "anchors": [{"file": "src/atbus_node.cpp", "symbols": ["node::send_data", "node::get_remote_channel"]}, {"file": "src/atbus_msg_handler.cpp", "symbols": ["on_recv_data_transfer_req", "forward_data_message"]}]}
{"id": "C29", "title": "Direct source id cannot be forged", "statement": "The direct source id seen by the message handlers on a connection bound to a registered endpoint with a non-zero id is that endpoint's id, whatever the peer wrote in the message header.", "quantifier": "all messages", "why_tests_cant": "messages are unbounded", "anchors": [{"file": "src/atbus_connection.cpp", "symbols": ["connection::unpack"]}]}
{"id": "C30", "title": "Registration requires a valid access token", "statement": "If access tokens are configured, a peer's registration request is accepted (connection bound to an endpoint, endpoint added, node marked as registered) only if at least one of the presented keys is the keyed hash, under the presented salt, of one of the configured tokens; with equal token lists two nodes always accept each other's generated keys.", "quantifier": "all token lists, all presented keys, all hash functions", "why_tests_cant": "key space is unbounded", "anchors": [{"file": "src/atbus_node.cpp", "symbols": ["node::check_access_hash", "node::generate_access_hash"]}, {"file": "src/atbus_msg_handler.cpp", "symbols": ["on_recv_node_reg_req", "on_recv_node_reg_rsp"]}]}
{"id": "C31", "title": "No data exchange before registration", "statement": "A connection that has not completed registration cannot make the node deliver, forward or emit data messages.", "quantifier": "all messages on an unregistered connection", "why_tests_cant": "message space is unbounded", "anchors": [{"file": "src/atbus_msg_handler.cpp", "symbols": ["on_recv_data_transfer_req", "on_recv_data_transfer_rsp", "on_recv_custom_cmd_req", "on_recv_custom_cmd_rsp"]}]}
{"id": "C32", "title": "Custom commands are authorised and answered once", "statement": "A custom command reaches the user callback only with a valid token (when tokens are configured); each command on a duplex connection is answered exactly once, with the request's sequence number and type.", "quantifier": "all messages, all states", "why_tests_cant": "message space is unbounded", "anchors": [{"file": "src/atbus_msg_handler.cpp", "symbols": ["on_recv_custom_cmd_req", "send_custom_cmd_rsp"]}]}
{"id": "C33", "title": "Messages to self", "statement": "Messages a node sends to its own id, from any callback nesting, are delivered to its own callbacks exactly once and in send order, never recursively inside a running callback.", "quantifier": "all interleavings of sends, callbacks and proc/poll calls", "why_tests_cant": "re-entrancy depth and histories are unbounded", "anchors": [{"file": "src/atbus_node.cpp", "symbols": ["node::send_msg", "node::dispatch_all_self_msgs"]}]}
{"id": "C34", "title": "Up/down notifications", "statement": "Between init and reset the node-up callback fires at most once and before any node-down callback; node-down fires at most once and only if node-up fired before.", "quantifier": "all event histories", "why_tests_cant": "histories are unbounded", "anchors": [{"file": "src/atbus_node.cpp", "symbols": ["node::on_actived", "node::on_shutdown", "node::shutdown", "node::fatal_shutdown", "node::reset"]}]}
{"id": "C35", "title": "Endpoint added/removed notifications pair up", "statement": "For every endpoint the added and removed callbacks alternate, starting with added, over every history.", "quantifier": "all histories", "why_tests_cant": "histories are unbounded", "anchors": [{"file": "src/atbus_node.cpp", "symbols": ["node::add_endpoint", "node::insert_child", "node::remove_child", "node::remove_endpoint", "node::remove_collection", "node::disconnect"]}]}
{"id": "C36", "title": "Dead peers are evicted, live peers are kept", "statement": "An endpoint that answers no ping and sends nothing is removed after at most fault_tolerant + 2 ping rounds; an endpoint that answers every ping and has a data connection is never removed by the ping mechanism.", "quantifier": "all schedules of ping rounds and answers, all fault_tolerant values", "why_tests_cant": "schedules are unbounded", "anchors": [{"file": "src/atbus_node.cpp", "symbols": ["node::ping_endpoint", "node::add_endpoint_fault", "node::on_recv"]}, {"file": "src/atbus_msg_handler.cpp", "symbols": ["on_recv_node_pong"]}]}
{"id": "C37", "title": "Ping processing terminates", "statement": "Each call of proc terminates: the ping loop handles every expired timer once and returns.", "quantifier": "all timer lists, all endpoint states", "why_tests_cant": "needs a particular combination of expired timers and endpoint states", "anchors": [{"file": "src/atbus_node.cpp", "symbols": ["node::proc", "node::add_ping_timer"]}, {"file": "src/atbus_endpoint.cpp", "symbols": ["endpoint::add_ping_timer"]}]}
{"id": "C38", "title": "Unfinished connections time out", "statement": "After proc(now), no connection that is not established and whose deadline passed remains registered; connections are never closed by this check before their deadline.", "quantifier": "all histories of time and connection creation", "why_tests_cant": "histories are unbounded", "anchors": [{"file": "src/atbus_node.cpp", "symbols": ["node::proc", "node::add_connection_timer", "node::remove_connection_timer"]}]}
{"id": "C39", "title": "Connection statistics conserve messages", "statement": "For every history on a connection: messages started = messages succeeded + messages failed + messages still in flight, in count and in bytes.", "quantifier": "all histories", "why_tests_cant": "histories are unbounded", "anchors": [{"file": "src/atbus_connection.cpp", "symbols": ["connection::push", "connection::iostream_on_written", "connection::mem_push_fn", "connection::ios_push_fn"]}]}
{"id": "C40", "title": "Data connection choice respects locality", "statement": "The connection chosen for data is established, is usable between the two processes (shared-memory only on the same host, in-process memory only in the same process), is the fastest class among the usable ones, and falls back to the control connection only if there is none.", "quantifier": "all endpoint states", "why_tests_cant": "state space is unbounded", "anchors": [{"file": "src/atbus_endpoint.cpp", "symbols": ["endpoint::get_data_connection", "endpoint::sort_connection_cmp_fn"]}]}
{"id": "C41", "title": "Shared memory mappings are reference counted", "statement": "A shared memory region stays mapped as long as there are more opens than closes and is unmapped by the last close, for every interleaving of opens and closes of any set of keys.", "quantifier": "all open/close histories", "why_tests_cant": "histories are unbounded", "anchors": [{"file": "src/channel_shm.cpp", "symbols": ["shm_open_buffer", "shm_close_buffer"]}]}
{"id": "C42", "title": "An accepted message fits at every hop", "statement": "A payload accepted by send_data (size at most msg_size) yields an encoded message of at most msg_size + the reserved frame header at the sender and after every forwarding step allowed by the ttl, so no hop rejects it for its size.", "quantifier": "all payload sizes, ids, sequences, router lists", "why_tests_cant": "encoded sizes depend on all field values", "anchors": [{"file": "src/atbus_node.cpp", "symbols": ["node::send_data"]}, {"file": "src/atbus_msg_handler.cpp", "symbols": ["msg_handler::send_msg", "on_recv_data_transfer_req"]}, {"file": "include/libatbus_protocol.proto", "symbols": ["msg", "forward_data"]}]}
{"id": "C43", "title": "Message sequence numbers", "statement": "alloc_msg_seq never returns 0 and does not repeat a number within 2^64-1 allocations.", "quantifier": "all allocation histories", "why_tests_cant": "2^64 allocations", "anchors": [{"file": "src/atbus_node.cpp", "symbols": ["node::alloc_msg_seq"]}]}
{"id": "C44", "title": "Receipts", "statement": "A data message sent with the require-response option that reaches its target produces exactly one response at the sender, and a success response is only produced if the message was delivered.", "quantifier": "all networks and routes", "why_tests_cant": "topologies are unbounded", "anchors": [{"file": "src/atbus_msg_handler.cpp", "symbols": ["on_recv_data_transfer_req", "send_transfer_rsp"]}]}
{"id": "C45", "title": "Connect deduplication", "statement": "node::connect returning SUCCESS means that a connection attempt to exactly the requested address is pending or was started.", "quantifier": "all address strings, all pending sets", "why_tests_cant": "strings are unbounded", "anchors": [{"file": "src/atbus_node.cpp", "symbols": ["node::connect"]}]}
{"id": "C46", "title": "Losing connections takes an endpoint offline consistently", "statement": "An endpoint that lost its control connection or its last data connection holds no connections, listens nowhere, has no ping timer, and all its former connections are unbound and disconnected; no operation sequence leaves a connection bound to an endpoint that does not hold it.", "quantifier": "all sequences of add/remove/reset operations", "why_tests_cant": "recursive reset interplay over histories", "anchors": [{"file": "src/atbus_endpoint.cpp", "symbols": ["endpoint::reset", "endpoint::add_connection", "endpoint::remove_connection"]}, {"file": "src/atbus_connection.cpp", "symbols": ["connection::reset", "connection::disconnect"]}]}
{"id": "C47", "title": "A static buffer manager holds a block of its configured size", "statement": "After set_mode(max_size, max_number) with both arguments positive, a push of max_size bytes into the empty manager succeeds.", "quantifier": "all max_size and max_number", "why_tests_cant": "depends on the header and alignment overhead for every configured size", "anchors": [{"file": "src/detail/buffer.cpp", "symbols": ["buffer_manager::set_mode", "buffer_manager::static_push_back"]}]}
{"id": "C48", "title": "Announced subnets mean the same at the peer", "statement": "The endpoint a node creates from a peer's registration message serves exactly the ids the peer itself serves.", "quantifier": "all ids and subnet configurations", "why_tests_cant": "The peer re-reads merged (prefix, mask) pairs under its own defaulting rules; tests only try a few configurations.", "anchors": [{"file": "src/atbus_msg_handler.cpp", "symbols": ["send_reg", "on_recv_node_reg_req"]}, {"file": "src/atbus_endpoint.cpp", "symbols": ["endpoint::create", "merge_subnets"]}]}
{"id": "C49", "title": "Segmentation of a stream does not change what is reported", "statement": "For every byte stream arriving on a stream connection, valid or not, two receivers that get the same bytes cut in different pieces, and are both still open afterwards, report the same sequence of receive callbacks with the same codes and the same bytes.", "quantifier": "every byte sequence, every two ways of cutting it, every interleaving of empty reads and other connections' counters", "why_tests_cant": "The number of ways to cut a stream is exponential in its length; tests use loopback sockets, which rarely cut inside a length field.", "anchors": [{"file": "src/channel_io_stream.cpp", "symbols": ["io_stream_on_recv_alloc_fn", "io_stream_on_recv_read_fn"]}]}
{"id": "C50", "title": "Empty reads do not affect a healthy connection", "statement": "Reads that return no data (would block, interrupted, zero bytes) never change what is later delivered and never close a connection that has had no error.", "quantifier": "every interleaving of empty reads with data", "why_tests_cant": "The number of empty reads a long-lived process sees is unbounded; a test sees a handful.", "anchors": [{"file": "src/channel_io_stream.cpp", "symbols": ["io_stream_on_recv_read_fn", "io_stream_init_configure"]}]}
{"id": "C51", "title": "A peer that keeps sending bad frames is cut off", "statement": "On a connection that is still open, the number of frames reported as damaged, and the number reported as too large, never exceed the configured maxima, whatever the peer sends.", "quantifier": "every byte sequence, segmentation and initial counter value", "why_tests_cant": "Requires every hostile stream, including ones where good frames are interleaved to hide bad ones.", "anchors": [{"file": "src/channel_io_stream.cpp", "symbols": ["io_stream_on_recv_read_fn"]}]}
{"id": "C52", "title": "A gentle disconnect flushes the send queue", "statement": "When a stream connection is disconnected without force and no write fails to start, the handle is closed only after every accepted message was handed to the transport and reported with success, also when the disconnect or further sends come from a written callback.", "quantifier": "all schedules of sends, completions, gentle disconnects and callbacks", "why_tests_cant": "depends on where in the write/merge cycle the disconnect falls", "anchors": [{"file": "src/channel_io_stream.cpp", "symbols": ["io_stream_send", "io_stream_try_write", "io_stream_on_written_fn", "io_stream_disconnect_inner", "io_stream_disconnect_run"]}]}
{"id": "C53", "title": "Memory given to the transport stays as it was until the write completes", "statement": "At any time at most one write is in progress per connection, and the bytes given to it are still stored, unchanged and at the head of the queue, whatever sends, merges, disconnects and callbacks happen before it completes.", "quantifier": "all schedules", "why_tests_cant": "merging and callbacks change the queue while a write is in progress", "anchors": [{"file": "src/channel_io_stream.cpp", "symbols": ["io_stream_send", "io_stream_try_write", "io_stream_on_written_fn", "io_stream_disconnect_inner", "io_stream_disconnect_run"]}]}
{"id": "C54", "title": "Messages sent on a stream connection are received in order, end to end", "statement": "Whatever the sender's schedule and however the byte stream is cut on its way, the receive callback of the peer gets exactly a prefix of the accepted messages, in order and unchanged, and all of them once the sender is idle or gently closed and the transport has delivered everything.", "quantifier": "all send schedules, all merges, all segmentations, all message sizes within the limits", "why_tests_cant": "combination of both sides' state machines", "anchors": [{"file": "src/channel_io_stream.cpp", "symbols": ["io_stream_send", "io_stream_try_write", "io_stream_on_written_fn", "io_stream_disconnect_inner", "io_stream_disconnect_run"]}, {"file": "src/channel_io_stream.cpp", "symbols": ["io_stream_on_recv_read_fn", "io_stream_on_recv_alloc_fn"]}]}
{"id": "C55", "title": "Disconnect closes the handle once and stops the queue", "statement": "The transport handle of a connection is closed at most once; after a disconnect request it is closed as soon as no write is in progress; and no message is accepted after the request.", "quantifier": "all schedules, including disconnects from written callbacks", "why_tests_cant": "several code paths may close", "anchors": [{"file": "src/channel_io_stream.cpp", "symbols": ["io_stream_send", "io_stream_try_write", "io_stream_on_written_fn", "io_stream_disconnect_inner", "io_stream_disconnect_run"]}]}
{"id": "C56", "title": "Custom commands run at their target", "statement": "A custom command sent to a node id goes to the neighbour the routing rules choose, is run exactly once and only by the node it was sent to, and only if that node accepts the access keys and protocol version; the node that runs it sends at most one answer, on the connection the command came from, with the same sequence number.", "quantifier": "every reachable state of the sender and of the receiver, every target id, argument list, header, access key list and configuration", "why_tests_cant": "Tests send commands between directly connected nodes with matching tokens; where a command for a node further away runs depends on routing tables, tokens and connection states.", "anchors": [{"file": "src/atbus_node.cpp", "symbols": ["node::send_custom_cmd", "node::get_remote_channel"]}, {"file": "src/atbus_msg_handler.cpp", "symbols": ["msg_handler::on_recv_custom_cmd_req", "msg_handler::send_custom_cmd_rsp"]}]}
{"id": "C57", "title": "Peers cannot drive a node into undefined behaviour", "statement": "Whatever messages, transport events and calls a node sees, in whatever order, it never executes an undefined shift, never uses a freed endpoint or an erased iterator, and no exception escapes while it handles an address.", "quantifier": "every history of calls, polls, received messages and transport events, and every single step from any state", "why_tests_cant": "Needs every message a peer can build and every order of events; a test runs one history, and undefined behaviour often passes unnoticed.", "anchors": [{"file": "src/atbus_node.cpp", "symbols": ["node::proc", "node::poll", "node::ping_endpoint"]}, {"file": "src/atbus_msg_handler.cpp", "symbols": ["msg_handler::on_recv_node_reg_req", "msg_handler::on_recv_node_conn_syn"]}, {"file": "src/atbus_endpoint.cpp", "symbols": ["endpoint::create", "endpoint_subnet_range::endpoint_subnet_range"]}, {"file": "src/channel_utility.cpp", "symbols": ["make_address"]}]}
{"id": "C58", "title": "Decision on a registration request", "statement": "A registration request that arrives on a stream connection whose peer is not registered yet is decided once. The peer gets at most one answer on that connection; it carries the sequence number of the request, the decision and the id and process of the node; without an answer the request was refused and the connection is closed, or the answer is larger than a message may be. The decision is 'version' exactly if the protocol version is older, 'access denied' exactly if no key fits, 'id conflict' exactly if get_endpoint finds a peer of another process under that id. A refusal adds and removes no peer, leaves parent and routes as they were and, unless it was for the version or the key, closes the connection. After an acceptance that could be sent the connection belongs to the peer: either the peer was known and nothing else changed, or it is reported as added exactly once and is the parent or in the routing table. A child whose ids lie inside one subnet of the node, without covering all subnets, and do not overlap those of other peers is always accepted.", "quantifier": "all reachable states of a node, all connections waiting for registration, all registration requests with a non-zero id and subnets of fewer than 2^31 ids, all results of the transport", "why_tests_cant": "The outcome depends on the whole history (known peers, their subnets, the parent, the state of the connection) and on every possible request; unit tests register a few well-formed nodes.", "anchors": [{"file": "src/atbus_msg_handler.cpp", "symbols": ["on_recv_node_reg_req", "send_reg"]}, {"file": "src/atbus_node.cpp", "symbols": ["add_endpoint", "get_endpoint", "on_recv"]}, {"file": "src/atbus_endpoint.cpp", "symbols": ["add_connection"]}]}
{"id": "C59", "title": "Every accepted listen or connect is answered once", "statement": "A call of io_stream_listen or io_stream_connect that returns an error never makes a connected callback for it. A call that returns success makes the connected callback of the channel and the one of the caller exactly once each, as soon as the callbacks that are running have returned and the system has completed what was started; until then its request is still with the event loop. A connection is passed to the callback exactly if the code is success. Every callback of the channel is followed by the one of the connection or caller. A host that is not an address is refused.", "quantifier": "every history of calls, nested callbacks and completions of the event loop, every result of the system, every address", "why_tests_cant": "Tests connect to one reachable address and wait; they do not try every order of completions, failures at every system call, calls from inside callbacks and closing in between.", "anchors": [{"file": "src/channel_io_stream.cpp", "symbols": ["io_stream_listen", "io_stream_connect", "io_stream_all_connected_cb", "io_stream_dns_connect_cb", "io_stream_dns_connection_cb", "io_stream_channel_callback"]}]}
{"id": "C60", "title": "Life of a stream connection", "statement": "The callbacks about one connection come in a fixed order: it is announced once, by a connected or an accepted callback with success; received, written and accepted callbacks come only between that and its disconnected callback; a send succeeds only before the first disconnect was asked for; the disconnected callbacks come once, only after somebody, the user or the channel, disconnected it; after the disconnected callbacks only the callback given to disconnect may come. The caller's connected callback finds the connection alive. Nothing is received after the user disconnected.", "quantifier": "every history of calls, nested callbacks and completions of the event loop, every number of connections", "why_tests_cant": "Races between completions, writes that are still running, disconnects from inside callbacks and closing the channel produce orders no test enumerates.", "anchors": [{"file": "src/channel_io_stream.cpp", "symbols": ["io_stream_make_connection", "io_stream_disconnect", "io_stream_disconnect_inner", "io_stream_disconnect_run", "io_stream_connection_on_close", "io_stream_on_recv_read_fn", "io_stream_on_written_fn"]}]}
{"id": "C61", "title": "A stream channel neither crashes nor leaks ownership", "statement": "Whatever the user calls, from inside or outside callbacks, and in whatever order the event loop completes requests: no assertion of the channel fails, no handle is closed twice, nothing is used after its release, no handle is released before the event loop is done with it. The process is aborted exactly by calling io_stream_close inside a callback made by the event loop.", "quantifier": "every history of calls, nested callbacks and completions of the event loop", "why_tests_cant": "Use after free shows up only in particular interleavings of close callbacks, pending writes and nested calls, and often goes unnoticed when it does.", "anchors": [{"file": "src/channel_io_stream.cpp", "symbols": ["io_stream_shutdown_ev_handle", "io_stream_connection_on_close", "io_stream_async_data_on_close", "io_stream_shared_ptr_on_close", "io_stream_flag_guard", "io_stream_close"]}]}
{"id": "C62", "title": "Closing a stream channel settles everything", "statement": "When io_stream_close returns, every connection ever announced has had its disconnected callbacks and is released, no request is left with the event loop and no handle is open. While it waits there is always something the event loop can still complete, the number of completions is bounded by the state in which closing began, and it does not wait for a peer.", "quantifier": "every reachable state in which close is called, every schedule of completions and every behaviour of callbacks while it waits", "why_tests_cant": "Termination under every schedule cannot be tested; tests close channels that are idle.", "anchors": [{"file": "src/channel_io_stream.cpp", "symbols": ["io_stream_close", "io_stream_disconnect_run", "io_stream_try_write"]}]}
{"id": "C63", "title": "The callback given to disconnect is called", "statement": "The callback passed to io_stream_disconnect is called exactly once, after both disconnected callbacks of the connection, and before the event loop or io_stream_close returns to the user. It is always the one of the last disconnect; every other one asked for before is called as well.", "quantifier": "every history of calls, nested callbacks and completions of the event loop", "why_tests_cant": "Which callback survives depends on the order of several disconnects, closing, read errors and completions.", "anchors": [{"file": "src/channel_io_stream.cpp", "symbols": ["io_stream_disconnect", "io_stream_disconnect_fd", "io_stream_disconnect_inner", "io_stream_connection_on_close"]}]}
{"id": "C64", "title": "A configured parent is contacted again and again", "statement": "Once start has been called on a node with an id and a parent address, and as long as init is not called and the clock is not set back, the next contact with the parent is always planned, no later than the longest of first_idle_timeout, retry_interval and ping_interval from now. A call of proc that finds this time passed either has a working control connection to the parent or calls connect with the address of the parent, unless the parent was lost or accepted the node within that very call.", "quantifier": "all histories of calls, callbacks, messages and transport results after start, all configurations, all times", "why_tests_cant": "a missed re-arming of the timer shows only after one particular order of losses, refusals, registrations and resets", "anchors": [{"file": "src/atbus_node.cpp", "symbols": ["node::start", "node::proc", "node::on_disconnect", "node::on_parent_reg_done", "node::remove_endpoint"]}]}
{"id": "C65", "title": "A node below a parent comes up only under a covering parent that accepted it", "statement": "When a node with an id and a configured parent has reported on_node_up, then since the last reset an endpoint was added (on_endpoint_added) whose ranges contain every range of the node, and a registration was reported accepted (on_register with a non-negative code); whenever the node has a parent, such an endpoint was added.", "quantifier": "all histories of init, start, reset and other calls, callbacks and messages", "why_tests_cant": "registration requests and responses may arrive in any order on any connection", "anchors": [{"file": "src/atbus_node.cpp", "symbols": ["node::start", "node::add_endpoint", "node::on_actived", "node::on_reg"]}, {"file": "src/atbus_msg_handler.cpp", "symbols": ["msg_handler::on_recv_node_reg_rsp"]}]}
{"id": "C66", "title": "An active node stays up", "statement": "After on_node_up, no call, callback, message, timeout or loss of the parent makes the node report on_node_down or shut down, except shutdown, reset and init, and a registration whose range does not cover the node, received from the peer at the address of the parent while the node is reconnecting to it.", "quantifier": "all states of an active node, all histories of calls, callbacks and messages", "why_tests_cant": "the node may be in any state when any of the many error paths is taken", "anchors": [{"file": "src/atbus_node.cpp", "symbols": ["node::fatal_shutdown", "node::shutdown", "node::on_disconnect", "node::remove_endpoint"]}, {"file": "src/atbus_msg_handler.cpp", "symbols": ["msg_handler::on_recv_node_reg_req", "msg_handler::on_recv_node_reg_rsp"]}]}
{"id": "C67", "title": "Layout, attaching and crash points of a memory channel", "statement": "After initialising a memory channel in a buffer of any sufficient length, every node head, node body and the room handed out behind it lie inside the buffer, behind the 4096 byte header, aligned, and no two of them share a byte; there is at least one node and no room for another; the buffer can then be attached. A process that stops after clearing the buffer and before the last store of the initialisation leaves a buffer every later attach refuses. Not so: that an attached channel fits the buffer it is attached from, or has a node (attaching does not compare the recorded sizes with the length).", "quantifier": "every buffer length, every pair of nodes, every point where the initialising process may stop, every header content", "why_tests_cant": "unit tests initialise a few fixed lengths and never stop half way", "anchors": [{"file": "src/channel_mem.cpp", "symbols": ["mem_init", "mem_attach", "mem_get_node_head", "mem_get_block_head", "mem_channel_head_align"]}]}
{"id": "C68", "title": "An endpoint is removed only for a reason", "statement": "Whenever the removal of an endpoint is reported, one of four things just happened: the node is being reset; disconnect was called with the number of that endpoint; a fault was counted for an endpoint with that number, which now has more faults since a message from it was last handled than are tolerated; or the endpoint was collected and found without a control connection or without a running data connection. Any message of the peer that is handled without an error, such as the answer to a ping, starts the count anew. Not so: that the endpoint removed is the one with the faults.", "quantifier": "every removal in every history of calls, callbacks, messages and clock values of a node", "why_tests_cant": "an endpoint may be removed from many places in the code and in any state; tests look at the few removals they provoke", "anchors": [{"file": "src/atbus_node.cpp", "symbols": ["node::remove_endpoint", "node::add_endpoint_fault", "node::ping_endpoint", "node::on_recv", "node::disconnect", "node::reset", "node::proc"]}, {"file": "src/atbus_endpoint.cpp", "symbols": ["endpoint::is_available", "endpoint::add_stat_fault", "endpoint::clear_stat_fault"]}]}
{"id": "C69", "title": "A connection is opened only to an address somebody named", "statement": "Every connection that appears during a call either has no address or one that the call named: the address given to connect, listen or the parent address; the address of an accepted peer; an address a registering peer announced, if it is not bound to another host or process than its own claim allows; or an address a registered peer recommended, if it is not a memory channel. Addresses of existing connections never change. A peer that has not registered cannot make the node open anything by recommending an address. A node can be made to attach to memory all the same: an address such as memx:// passes the check and opens a memory channel, and a peer only has to claim the node's own host and process id.", "quantifier": "all states, calls and histories of calls, all contents of received messages", "why_tests_cant": "the addresses come from messages of peers, in any state and after any history; a test can only try some of them", "anchors": [{"file": "src/atbus_msg_handler.cpp", "symbols": ["on_recv_node_reg_req", "on_recv_node_conn_syn"]}, {"file": "src/atbus_connection.cpp", "symbols": ["connect"]}, {"file": "src/atbus_node.cpp", "symbols": ["connect", "proc"]}]}
{"id": "C70", "title": "Shortcuts are recommended soundly and whenever possible", "statement": "A node recommends an address to a peer only while it handles data received from a registered peer. The recommendation goes to the next hop towards the direct source of the data; the source, the receiver and the next hop to the receiver are all in the node's own subnets; the address is one that this next hop announced, is not empty, not a memory channel, and is a unix address only if both are on the same host. Conversely, if such data is passed on successfully and the next hop has announced an address the source can use, an address is recommended.", "quantifier": "all reachable states, all received messages, all calls", "why_tests_cant": "which address is offered depends on what two peers announced in any order and on the routes at that moment", "anchors": [{"file": "src/atbus_msg_handler.cpp", "symbols": ["on_recv_data_transfer_req", "send_node_connect_sync"]}, {"file": "src/atbus_endpoint.cpp", "symbols": ["add_listen"]}]}
{"id": "C71", "title": "Two nodes that fit together and share tokens come to know each other", "statement": "Every registration a node sends, and every answer to one, carries its own id, process id, host name and blocks and for each of its access tokens one key made from it. A node with the same tokens whose blocks contain those of the sender takes it in as a child and answers with success; a node whose blocks lie in those of the sender takes it in as its parent. A node that waits for its parent is up once the parent has both registered with it and accepted its registration, in either order and on whatever connections, as long as the node has not given up before.", "quantifier": "all reachable states of both nodes, all configurations, tokens, salts, key functions and blocks, all connections on which the messages arrive", "why_tests_cant": "The handshake depends on two independent histories, on random salts and on the order and the connections of four messages; tests fix one of them.", "anchors": [{"file": "src/atbus_msg_handler.cpp", "symbols": ["msg_handler::send_reg", "msg_handler::on_recv_node_reg_req", "msg_handler::on_recv_node_reg_rsp"]}, {"file": "src/atbus_node.cpp", "symbols": ["node::generate_access_hash", "node::check_access_hash", "node::add_endpoint", "node::on_parent_reg_done", "node::on_actived"]}]}
{"id": "C72", "title": "A sender with a fixed send area keeps all guarantees and never fails", "statement": "When a connection's send buffers live in one fixed area (send_buffer_number not 0), no schedule of sends, write completions, write failures, callbacks and disconnects makes the sender fail an assertion or touch memory outside the area; in particular a block merged from several always finds room. Messages go out in the order they were accepted, each is reported once, a gentle disconnect flushes, the receiver gets exactly the accepted messages in order, and the memory given to the transport keeps its content and place until the write completes. The area does not wear out: after any history an idle connection takes every message that leaves 256 bytes of the area free.", "quantifier": "all area sizes below 2^60 and block numbers, all schedules, message sizes and callbacks", "why_tests_cant": "whether the merged block fits depends on where the ring wraps and what was freed before", "anchors": [{"file": "src/channel_io_stream.cpp", "symbols": ["io_stream_send", "io_stream_try_write", "io_stream_on_written_fn", "io_stream_disconnect_inner", "io_stream_make_connection"]}, {"file": "src/detail/buffer.cpp", "symbols": ["buffer_manager::static_push_back", "buffer_manager::static_push_front", "buffer_manager::static_pop_front"]}, {"file": "src/atbus_node.cpp", "symbols": ["node::get_iostream_conf"]}]}
{"id": "C73", "title": "The limits of two nodes' stream channels fit together", "statement": "What a node may send on a stream connection (any encoded message up to msg_size plus the reserved frame header) is taken by an idle connection whose send buffer has room for one message, whether the send buffers are allocated or in a fixed area, and is received unchanged and in order by every node whose msg_size is not smaller; no such message is refused for its size and none makes the peer drop the connection.", "quantifier": "all msg_size, send_buffer_size and send_buffer_number values without overflow, all message sizes, send schedules, merges and segmentations", "why_tests_cant": "Six limits on two nodes are computed from three settings; tests use the defaults and small messages.", "anchors": [{"file": "src/atbus_node.cpp", "symbols": ["node::get_iostream_conf", "node::default_conf"]}, {"file": "src/channel_io_stream.cpp", "symbols": ["io_stream_init_configure", "io_stream_make_connection", "io_stream_send", "io_stream_on_recv_read_fn"]}, {"file": "src/atbus_msg_handler.cpp", "symbols": ["msg_handler::send_msg"]}]}
{"id": "C74", "title": "A connection is announced, used and closed, in this order and once", "statement": "on_new_connection is called at most once for a connection; everything sent, written or received over it, and every message callback naming it, comes after that call and before its transport is closed; the transport is closed at most once, and afterwards nothing is sent, written, received or reported for that connection. The transports a node has open are exactly those of the connections it announced and has not closed.", "quantifier": "every reachable state of a node: every sequence of calls, transport callbacks, received messages, timeouts, resets and transport results, and every connection", "why_tests_cant": "The claim is about every history: a connection can be closed by the peer, a timeout, a fault, a refused registration, a collected endpoint, a reset or the loss of its endpoint, at any point between two callbacks, also while its own message is being handled.", "anchors": [{"file": "src/atbus_connection.cpp", "symbols": ["connect", "listen", "disconnect", "push", "iostream_on_connected_cb", "iostream_on_accepted", "iostream_on_written", "iostream_on_recv_cb"]}, {"file": "src/atbus_node.cpp", "symbols": ["on_new_connection", "on_recv", "reset"]}]}
{"id": "C75", "title": "Disconnecting takes exactly one node out of service", "statement": "When disconnect(id) returns success, the node was linked to a node with that id; its removal is reported once, all its connections are closed and unbound, it has no timer and listens nowhere any more, no other node is removed or reported, no other connection changes and nothing is sent; unless it was the parent, no linked node with that id is left and a second call returns not found. Otherwise the call returns not found and changes nothing, and no linked node has that id. A node that disconnected from its parent reports the state it reports whenever it lost its parent.", "quantifier": "all reachable states of a node whose linked nodes have well-formed ranges, all ids", "why_tests_cant": "which table entries and connections go depends on the whole history of registrations, data connections and ranges", "anchors": [{"file": "src/atbus_node.cpp", "symbols": ["node::disconnect", "node::remove_child", "node::find_route"]}, {"file": "src/atbus_endpoint.cpp", "symbols": ["endpoint::reset"]}, {"file": "src/atbus_connection.cpp", "symbols": ["connection::reset", "connection::disconnect"]}]}
{"id": "C76", "title": "A node that is not initialised is inert", "statement": "Whatever a node was doing, reset() leaves it without linked nodes, connections of its own, timers, pending operations, queued messages and polled connections. From then on, and before the first init, until init is called: whatever calls are made and whatever the network does, no callback runs, nothing is sent, no connection is opened or closed, the node stays as it is, every call returns, and start, listen, connect and the send calls answer 'not initialised', connect for an endpoint 'bad parameter', disconnect 'not found'. Once a reset has begun no further connection is announced and no registration is sent.", "quantifier": "all reachable states of a node, all later histories without init, of any length", "why_tests_cant": "the state a reset must clear up depends on the whole history before it, and the silence afterwards must hold for every continuation", "anchors": [{"file": "src/atbus_node.cpp", "symbols": ["node::reset", "node::init", "node::start", "node::listen", "node::connect", "node::disconnect", "node::send_data", "node::send_custom_cmd", "node::proc", "node::poll", "node::shutdown"]}, {"file": "src/atbus_connection.cpp", "symbols": ["connection::reset", "iostream_on_connected_cb"]}, {"file": "src/atbus_endpoint.cpp", "symbols": ["endpoint::reset"]}]}
