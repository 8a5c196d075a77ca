# Formal model of atframework/libatbus

## Method

Everything is an executable Gallina model of the C++ code, written function by
function, with the file and line range of the code it models in the comment on
every definition.  Only the Coq standard library is used.  Model files contain
definitions, `*Spec` files the small independent specifications, `*Proof` files
lemmas, `Prop*.v` files the final theorems, non-vacuity examples and
`Print Assumptions`.

* Undefined behaviour, thrown exceptions and out-of-range accesses are separate
  outcomes of the models, never defaulted away.
* Hash functions (murmur, crc, sha) are section variables: the theorems hold for
  every function.
* libuv, protobuf (except encoded sizes), the operating system and the memory
  allocator are not modelled; their possible behaviours appear as arbitrary
  inputs (chunk lists, schedules, oracles).
* A property that is false for the code as written gets a theorem named
  `..._refuted` with a concrete witness, plus the strongest true variant.

## Plan per property

| id | modelled where | how proved |
|----|----------------|------------|
| C01 | `Vint.v`: `write_vint`/`read_vint` over byte lists with 64-bit wrap | encode = base-128 digits lemma, induction on digits |
| C02 | same | prefix lemma on continuation bits; length bound by induction on input |
| C03 | `Buffer.v`: list-of-blocks state, op set = public API | step refinement to a bounded deque spec, induction on op list |
| C04 | `Buffer.v`: ring area as address arithmetic (head/tail index, circle_index_ as block pointers), byte memory | ring invariant (segments ordered, disjoint), step refinement to the same deque spec |
| C05 | both buffer models | accounting invariant over op lists |
| C06 | `Mem.v`: node array, head cursors, `mem_send`/`mem_recv` as total functions; hash = section variable | ring abstraction + refinement to a FIFO of byte strings, induction on op list |
| C07 | same | capacity equations from the ring invariant |
| C08 | `MemConc.v`: small-step interleaving model, one step per atomic load/CAS/flag store | inductive invariant over all schedules |
| C09 | `MemConc.v` with crashed writers and reader timeout | same invariant, skip lemma |
| C10 | `Mem.v` on arbitrary memory contents | case analysis of `mem_recv`, no invariant assumed |
| C11 | `IoRecv.v`: receiver state (head buffer, big block), chunk steps; frames in `IoSpec.v` | simulation with an unchunked parser; induction on chunks |
| C12 | same, with altered payload | same parser spec |
| C13 | same, arbitrary bytes; out-of-range access is a distinct outcome | invariant; wrap-around witness for the length overflow |
| C14 | `IoWrite.v`: write queue over the deque model, WRITING flag, merge buffer | invariant: transported ++ in-flight ++ queued = concatenation of frames |
| C15 | same, callbacks as an output trace | same invariant on callback trace |
| C16 | `Address.v`: `make_address` on character lists | string lemmas |
| C17 | same; exception is a distinct outcome | refutation witness + exact characterisation of the aborting inputs |
| C18 | same | case analysis |
| C19 | `Subnet.v`: 64-bit arithmetic, undefined shift is a distinct outcome | bit lemmas; refutation for mask >= 31 |
| C20 | `Subnet.v`: sort + merge loop | loop invariant on the id set covered |
| C21 | same | refutation witness + positive theorem under no-three-nesting hypothesis |
| C22 | same | list induction, soundness and completeness with the id-0 exception isolated |
| C23 | `Route.v`: route table as sorted association list, add/remove | invariant over histories; refutations for nested subnets |
| C24 | same | lower_bound lemma |
| C25 | `NodeCore.v` (`get_remote_channel`, `send_data`), `PropNodeMsg.v` | node invariant + decision table spec `next` |
| C26 | `NetSpec.v`: the way of one message through arbitrary reachable nodes; `NodeCount.v`, `NetProof.v`, `PropNet.v` | measure on router list, one copy per receipt; responses refuted by two nodes that pass one back and forth |
| C27 | `NodeMsg.v` (forwarding), `NodeHandle.v`, `PropNodeMsg.v` | effect of every received message on the trace; refutation for listening memory channels |
| C28 | `TreeSpec.v`: trees of nodes, nodes in their places, the way of a message; `TreeProof.v`, `PropTree.v` | next hop = next step of the tree path; induction on the path |
| C29 | `NodeMsg.v` (`unpack`), `PropNodeMsg.v` | equality of runs; trace of received messages |
| C30 | `NodeMsg.v`, `NodeAuth.v`, `PropNodeAuth.v`; the keyed hash is a field of the configuration | invariant over histories; per-message frame |
| C31 | `NodeMsg.v`, `NodeHandle.v`, `PropNodeMsg.v` | trace of received messages; refutations (version path, own data connection) |
| C32 | same, `PropNodeAuth.v` | trace of received messages |
| C33 | `SelfMsg.v` (call stack, guards, queues; any call from any callback), `SelfSpec.v`, `SelfProof.v`, `PropSelf.v` | invariant over all interleavings of calls and callback returns |
| C34 | `Node.v`, `NodeSpec.v` (trace), `NodeLog.v`, `PropNodeLife.v` | trace invariant over all reachable states |
| C35 | `Node.v`, `NodeSpec.v`, `NodeNotice.v`, `PropNodeLife.v` | trace invariant with the order of the routing table; refutation for two ranges |
| C36 | `NodeWeary.v`, `NodeDead.v`, `PropNodeDead.v`, `NodeCalm.v` (the fault counter of the parent), `PropSilent.v` (the parent) | measure ("patience") that never grows while nothing arrives and shrinks in every round |
| C37 | `Node.v` (`proc`, `ping_loop` with fuel), `NodePing.v`, `PropNodePing.v` | refutation: for every fuel the loop does not finish; positive theorem under availability |
| C38 | `NodeTime.v`, `PropNodeTime.v` | sorted timer list invariant over histories |
| C39 | `Node.v`, `NodeSpec.v`, `NodeStat.v`, `PropNodeLife.v` | balance invariant; counters are unbounded naturals in the model |
| C40 | `NodeCore.v` (`get_data_connection`), `PropNodeConn.v` | list lemmas on the stable sort and search; refutation for in-process memory |
| C41 | `Shm.v` (table of mappings, system answers as inputs), `PropShm.v` | history invariant: count of a record = opens - closes; refutations for regions named by a path |
| C42 | `Proto.v`: encoded form of data messages; `PropSize.v` | arithmetic bounds, induction over the way of a message |
| C43 | `PropSeq.v` (atomic increments of any threads), `NodeCore.v` (`alloc_seq`) | closed form of the i-th number modulo 2^64-1 |
| C44 | `NetSpec.v`, `NetProof.v`, `PropNet.v` | counting deliveries and responses along the way; refutation witnesses |
| C45 | `NodeCore.v` (`connect`), `PropNodeConn.v` | case analysis; refutation witnesses |
| C47 | `Buffer.v` | refutation + exact capacity theorem |
| C48 | `Subnet.v` | list induction |
| C49 | `IoRecv.v` | the frames read off a byte string are unique |
| C50 | `IoRecv.v` | refutation; a run equals the run without its empty reads |
| C51 | `IoRecv.v` | counter invariant |
| C52 | `IoWrite.v` | invariant: a gentle close starts with an empty queue; no step cancels |
| C53 | `IoWrite.v` | queue invariant: the head block is the block in flight |
| C54 | `IoWrite.v`, `IoRecv.v` | composition of C14/C52 with C12 |
| C55 | `IoWrite.v` | counting closes per step |
| C56 | `Node.v` (`send_custom`), `NodeCore.v` (`cmd_req`), `PropCmd.v` | exact list of entries one received command adds; refutation with a tree of three nodes |
| C57 | `NodeUb.v` (where `TUb` entries come from, for every handler), `PropUb.v` | cause of every undefined step; histories without any; five refutations |
| C58 | `NodeReg.v` (what a request leaves alone, the five possible outcomes), `PropReg.v` | frame relation for everything but the connection; exact list of messages on it; refutation for the own id |
| C59 | `IoConn.v` (stack machine), `IoConnSpec.v` | counting invariant: answers made + owed by frames + with libuv = accepted requests |
| C60 | same; `lives` in `IoConnSpec.v` | the automaton state of every connection is a function of the model state |
| C61 | same, `IoConnInv.v` (`Core`, `Full`) | ownership invariant between handles, connections, requests and frames |
| C62 | same, `IoConnEnd.v` | the invariant at the end of close; decreasing measure `weight` |
| C63 | same | facts read off the automaton of C60 |
| C64 | `Node.v` (`parent_op`), `NodeParent.v` (what every handler does to the timer), `PropParent.v` | invariant over histories: timer set and near; refutation witnesses |
| C65 | `NodeUp.v` (what is in the log since the last reset), `NodeGrant.v` (accepted registrations), `PropUp.v` | invariant over histories; refutation witness |
| C66 | `NodeStay.v` (no handler takes an active node down), `PropStay.v` | relation kept by every handler but one; refutation witness for that one |
| C67 | `MemLayout.v`: header of a memory channel, its stores in program order, `mem_attach`; `PropLayout.v` | arithmetic for every length; case analysis over crash points; refutation witnesses |
| C68 | `CauseSpec.v` (reasons, over the log), `NodeCause.v`, `PropCause.v` | invariant over histories; refutation witness |
| C69 | `OpenSpec.v` (who names an address), `NodeOpen.v`, `PropOpen.v` | relation kept by every function; refutation witnesses |
| C70 | `OpenSpec.v` (`advice`), `NodeSync.v`, `NodeListen.v`, `PropOpen.v` | relation kept by every function, case analysis of one receipt |
| C71 | `ShakeSpec.v` (what a node says of itself), `NodeIntro.v`, `PropShake.v`, `PropMeet.v` (the same for two nodes with arbitrary histories) | relation kept by every function; two histories joined by the messages; refutation witness |
| C72 | `IoWriteS.v`, `IoWriteSSpec.v`, `IoRing.v` (geometry of the ring), `IoWriteSProof.v`, `PropIoWriteS.v` | trace invariant over all schedules; layout argument for the merged block |
| C73 | `StreamConf.v`: `get_iostream_conf` and the choice of send buffers on top of `IoWrite.v`, `IoWriteS.v`, `IoRecv.v` | composition of C54 and C72 with the limits computed from one node's msg_size; witness for a peer with a smaller one |
| C74 | `LifeSpec.v` (the life of a connection in the trace), `NodeLife.v`, `PropConnLife.v` | three-stage automaton run over the trace beside every function of the node |
| C75 | `NodeCore.v` (`node_disconnect`), `PropDrop.v` | closed forms of reset, order of the routing table, C74 for the closed transports; refutation witness for the state |
| C76 | `Node.v` (`reset`, all calls), `NodeInert.v`, `PropInert.v` | every state in `CREATED` is cleared up (induction over calls with the relation `kq` for the tail of `reset`), then case analysis of every call; refutation witness for the reset itself |
| C46 | `Node.v`, `NodeReset.v` (closed forms), `NodeInv.v`, `PropNodeLife.v` | invariant + closed forms of reset |

## Trusted base

* Coq 8.16.1 kernel (and `coqchk`).
* The reading of the C++ sources embodied in the model definitions.
* `Print Assumptions` is printed under every property theorem; the aim is
  "Closed under the global context" everywhere.

### Header of a memory channel (`MemLayout.v`)

* The buffer is cleared before the first modelled store; a crash inside the `memset` is not modelled.
* Sizes are those of a 64-bit build with the default build options (node 256, alignment 16); the
  configuration part of the header is left out.

### Memory channel with concurrent senders (`MemConc*.v`)

* Modelled: `mem_send_real`, `mem_send` and `mem_recv` of channel_mem.cpp as a
  small-step machine: one step per atomic access and per byte stored or loaded,
  any number of senders, one receiver, spurious compare-and-swap failure.
* Assumed: sequential consistency (the C++ code uses acquire/release fences; weak
  memory reorderings are not modelled).  `buffer_size` is loaded once before the
  fence and once after it; the code re-reads it a few more times in between.
* `fair` (MemConcSpec.v) restricts schedules: no sequence number still in use is
  handed out again, no compare-and-swap succeeds on a cursor that went exactly once
  round the ring, the receiver gives up only on senders that have stopped.  Every
  restriction is shown necessary by a `_refuted` theorem.
* Not modelled: statistics counters, `mem_show_channel`, `mem_attach`.

### Stream channel receiver (`IoRecv*.v`)

* Modelled: `io_stream_on_recv_alloc_fn` and `io_stream_on_recv_read_fn` of
  channel_io_stream.cpp, byte for byte, for one connection with dynamic read buffers
  (`recv_buffer_static` = 0); other connections appear as arbitrary increments of the
  channel's counters.  Allocation may fail at any time.
* Assumed: libuv stores between one byte and the whole window per read, in order;
  receive callbacks do not call back into the channel; counters do not wrap.
* Not modelled in these files: connection set-up, name resolution, listen and accept (see
  `IoConn*.v`).

### Stream channel sender (`IoWrite*.v`)

* Modelled: `io_stream_send`, `io_stream_try_write` (cancelling, merging, writing),
  `io_stream_on_written_fn`, `io_stream_disconnect_inner`/`_run` and the close
  callback of channel_io_stream.cpp, over the dynamic buffer manager of `Buffer.v`
  (`send_buffer_static` = 0, the default).  Allocation may fail at any time, uv_write may
  fail at any time, writes may complete with any status.
* Assumed: libuv completes a write once, and before the close callback; messages are
  shorter than 2^31 bytes; a written callback only sends on or disconnects the same
  connection; `uv_write_t` takes 192 bytes (its size plays no role in the proofs
  beyond being a constant).
* `IoWriteS.v` models the same functions over the static manager of `Buffer.v`
  (`send_buffer_number` not 0): a ring of blocks in one fixed area.  `IoRing.v` proves that
  the block merged from several always finds room, `IoWriteSProof.v` carries the invariant
  of `IoWriteProof.v` over.  An area of at least 2^60 bytes is excluded.
* Not modelled: the request structure's content.
* `StreamConf.v` models `node::get_iostream_conf` (64-bit sums) and which of the two senders
  a connection gets.  C73 assumes msg_size below 2^30 and send_buffer_size below 2^60.

### Connections of a stream channel (`IoConn*.v`)

* Modelled: channel_io_stream.cpp 139-335 and 636-1545: init, close, listen, connect, name
  resolution, accept, disconnect, the close callbacks, the flag guard, and the part of reading,
  sending and writing that decides when a connection is closed.  Callbacks may call every
  function again; the rest of the interrupted functions is an explicit stack of frames.
* Assumed of libuv: every request accepted is completed once; the write of a connection
  completes before the close callback of its handle; uv_close on a closing handle aborts; a
  handle may be used until its close callback; a new file has a number no open file has.
* `no_rehash` restricts histories: inside a disconnected callback, no disconnect makes the
  hash table of closing connections rehash.  `C61_rehash_refuted` shows it is needed.
* Not modelled here: contents of messages (see the two models above), counters of errors,
  socket options, addresses of accepted peers.  `active_reqs` does not wrap.

### Node (`NodeTypes.v`, `NodeConn.v`, `NodeCore.v`, `NodeMsg.v`, `Node.v`)

* Modelled: `node`, `connection`, `endpoint` and `msg_handler` (atbus_node.cpp,
  atbus_connection.cpp, atbus_endpoint.cpp, atbus_msg_handler.cpp): init, start, reset,
  proc, listen, connect, disconnect, sends, custom commands, registration, ping, routing,
  removal, timers, statistics and every callback of the transports.  A state is a record;
  every observable effect is an entry of its log.
* A history is any list of calls and transport events.  Results of system calls, random
  salts, the order of channels polled by `proc` and the time are arbitrary inputs.
* Simplified: user callbacks do not call back into the node; error and info callbacks are
  not recorded; allocation succeeds; configured numbers are not negative; hash code,
  flags and weight of an endpoint are left out; objects are not freed but reset when their
  last reference goes (a use after that is the log entry `TUb`); data connections are
  sorted when looked up; absolute unix paths are not treated specially; only the first
  `access_token_max_number` tokens are configured; statistics are unbounded naturals;
  outstanding connects finish during reset with arbitrary results; when the faults
  of a replaced endpoint remove its successor (C68), the successor stays in the model with its
  connections, as it does in the code when the application keeps the pointer from the removal
  callback (`ep_fault`).
* Undefined behaviour that the model records (`TUb`): shifts of `int` by too many bits in
  the subnet code, exceptions and overflow while an address is taken apart, use of an
  endpoint that `ping_endpoint` released, erasing the entry `proc` iterates over, and the
  null connection the accept callback gets when accepting failed.
  Other kinds (data races, overflow of signed counters, dangling pointers elsewhere,
  failing allocation) are not represented.

### Networks of nodes (`NetSpec.v`, `TreeSpec.v`) and encoded sizes (`Proto.v`)

* A message that a transport took is received at most once, by a node in some reachable
  state; a network is not a further model but a quantification over such receipts.  In
  trees (`TreeSpec.v`) a message sent over a connection bound to peer `j` is received by
  node `j` on a connection that brings messages from the sender; nodes may do anything
  between receipts as long as they are in their places again.
* `Proto.v` models the protobuf encoding of data messages only (field numbers and types of
  libatbus_protocol.proto, packed router list, default values left out).  The size of
  other messages is an arbitrary function.  Elsewhere the size of every message is an
  arbitrary function of the message.

## Findings (each proved as a `_refuted` theorem)

* C08: a sender preempted before its compare-and-swap for exactly one lap swallows
  unread messages (`C08_lap_refuted`); a message can be delivered twice when the
  final sequence re-check fails after delivery (`C08_duplicate_refuted`).
* C09: the skip after a dead sender can skip a live sender's node
  (`C09_live_sender_refuted`).
* C10: with a sender woken after it was given up on, the receiver copies more bytes
  than the caller's buffer holds (`C10_concurrent_refuted`).
* C13: a frame announcing about 2^64 bytes makes the receiver hash outside its
  buffer (`C13_length_wrap_refuted`).
* C50: empty reads are counted per channel and never forgotten; the 257th closes
  whichever connection reports it (`C50_empty_reads_refuted`).
* C14: when merging queued blocks fails to allocate, the null pointer is used
  (`C14_merge_out_of_memory_refuted`); a send that returned WRITE_FAILED stays queued and
  is transmitted later (`C14_failed_send_refuted`).
* C15: after a failed uv_write followed by a disconnect, accepted messages are never
  reported (`C15_lost_callback_refuted`); a write that failed asynchronously is reported
  with code success (`C15_success_refuted`).
* C27: a message received on a listening memory channel can be sent back to the node it
  came from (`C27_never_back_refuted`).
* C31: a data request of an older protocol version on an unregistered connection makes
  the node send a data response to a third node (`C31_unregistered_data_ignored_refuted`).
* C32: responses to custom commands are accepted without a token
  (`C32_answer_needs_token_refuted`).
* C35: reset reports the removal of an endpoint once per address range
  (`C35_alternate_refuted`).
* C40: an in-process memory channel is used for a peer in another process of the same host
  (`C40_data_connection_refuted`).
* C45: a connect is silently dropped when an unfinished attempt has a shorter address that
  begins the same (`C45_prefix_refuted`), after a refused address (`C45_refused_refuted`)
  and after a failed listen (`C45_failed_listen_refuted`).
* C38: a second `start` with an earlier time keeps an overdue connection
  (`C38_clock_set_back_refuted`).
* C37: `proc` never returns when two ping timers are due and the first endpoint has been
  without a data connection for longer than the first idle timeout
  (`C37_proc_returns_refuted`).
* C33: `reset` inside the callback that receives a message to self makes the node pop an
  empty list (`C33_reset_in_callback_refuted`), and after a restart in that callback
  messages are delivered inside it (`C33_restart_in_callback_refuted`).  Messages to self
  sent by callbacks during a reset are lost (`C33_lost_in_reset_refuted`).  Commands to self
  are never handled with `loop_times = 1` (`C33_commands_starve_refuted`).  A data response
  for the node itself reaches nobody (`C33_own_response_dropped_refuted`).
* C41: a shared memory region named by a path starts with reference count 0.  With two or
  more users the last but one close unmaps it under the last one
  (`C41_path_unmapped_early_refuted`, `C41_path_early`); with one user it is never unmapped
  and its descriptor stays open (`C41_path_never_unmapped_refuted`).  A failing shmat is
  reported as success (`C41_attach_unchecked_refuted`).
* C26: responses are not limited by the ttl: two nodes that claim the same range and reach
  each other through shared memory pass a response for a missing node in it back and forth
  without end (`C26_responses_refuted`, `C26_responses_run_refuted`).
* C44: a node that passes a message on to a node outside its own subnets already reports
  success, so a sender gets two success responses (`C44_one_response_refuted`) or one for a
  message that is lost (`C44_success_means_delivered_refuted`).
* C42: with a ttl above 91 a message that was forwarded less often can be too large to pass
  on, and so can the response about it (`C42_large_ttl_refuted`).  The receive buffer for
  memory channels is smaller than the limit for sending; a message in between stays at the
  head of the channel for ever (`C42_memory_receiver_refuted`, `C42_memory_receiver_stuck`).
* C56: a custom command does not carry its target; sent to a node that is not a neighbour,
  it is run by the first hop, which passes nothing on (`C56_command_target_refuted`).
* C57: a peer that has not registered can make a node shift an `int` by 31 bits (a
  registration with a 31-bit subnet, `C57_subnets_refuted`) or throw `std::out_of_range`
  out of its event loop (a registration that announces the address `a:`,
  `C57_address_refuted`).  Three damaged messages on a memory channel the node listens on
  erase the entry `proc` is iterating over (`C57_polled_refuted`).  A parent that answers
  no ping while the data connection to it is still being set up is freed inside
  `ping_endpoint` and then written to (`C57_parent_refuted`).
* C58: a node does not compare the id of a registering peer with its own.  A peer that
  claims the id of the node becomes its child; if it also claims the same subnets it
  becomes the parent of a node that has none configured (`C58_own_id_refuted`).
* C59: listening on a host that does not parse succeeds on address 0, every interface
  (`C59_bad_host_refuted`).
* C60: when a callback closes the channel inside listen, the caller's connected callback gets
  a released connection after close has returned (`C60_late_connected_refuted`); messages read
  together are delivered after a disconnect (`C60_received_after_disconnect_refuted`).
* C61: `io_stream_connection_on_close` keeps an iterator across callbacks; a disconnect in
  them that rehashes the table invalidates it (`C61_rehash_refuted`).
* C62: close waits for writes peers do not read (`C62_waits_for_peer_refuted`).
* C63: callbacks given to disconnect are dropped by close, by a later disconnect and inside
  the callback itself (`C63_close_drops_callback_refuted`,
  `C63_second_drops_first_refuted`, `C63_inside_callback_refuted`).
* C64: the time of the next contact with the parent survives reset and init, so a node that
  was initialised but not started connects (`C64_before_start_refuted`).  Before a node was
  up, a refused connection to the parent shuts it down (`C64_first_refused_refuted`); an
  attempt that failed at once makes the next one do nothing (`C64_idle_retry_refuted`).
* C66: a peer at the address of the parent that registers too small a range takes an active
  node down (`C66_wrong_parent_refuted`).
* C67: attaching compares the name, version, alignment and word size only: a channel made in a
  larger buffer (`C67_larger_refuted`) and one without nodes (`C67_no_nodes_refuted`, what a crash
  leaves if the stores of the header are reordered; there is no fence) are accepted.
* C68: faults are counted per endpoint object but the table is searched by number, so faults of
  an endpoint that was replaced remove its successor (`C68_innocent_refuted`).
* C69: recommended addresses are checked for the prefix `mem:` but opened as memory channels
  when the scheme begins with `mem`, so `memx://` is attached (`C69_memory_refuted`).  A peer
  that claims the node's host and process id makes it attach to an address of the peer's choice
  (`C69_claim_refuted`).
* C71: a node that does not listen dials the address its parent announces; when that fails
  before the parent has accepted the registration, the node closes the connection that works
  and shuts down (`C71_redial_refuted`).
* C75: after `disconnect` from the parent a node without parent is still in state running
  (`C75_state_refuted`).
* C76: a connect that is pending when a node is reset completes during the reset: the connection is
  first reported invalid, then announced as new, and a registration is sent over it (`C76_during_refuted`).

The log of a node also has markers the code does not have: `TReset`, `TBegin`, `TFault`, `TGood`,
`TCheck` and `TAsked` record a reset and its beginning, a counted fault, a handled message, the
connections found when an endpoint is collected, and a call of `disconnect` that found its
target.  They change no other field; the properties about reasons (C68) are stated with them.
