# Formal model of the uHAL client (ipbus-software) in Rocq

## What is modelled

The C++ client library under `/repo/uhal` is modelled function by function as
total, computable Gallina functions in `/verif/rocq/theories`.  Model files
contain definitions only (with the `/repo` lines they model), specification
files contain the independent statement of what should happen, proof files the
lemmas, and `Prop_*.v` files the final theorems, an Example for each, and
`Print Assumptions`.

| Area | /repo sources | Model | Specification, proofs, theorems |
|---|---|---|---|
| 32-bit words, mask shift | `utilities/bits.cpp`, `ClientInterface.cpp` (masked access) | `Word.v`, `Bits.v` | `WordLemmas.v`, `BitsProofs.v`, `Prop_Masks.v` |
| Transaction headers | `ProtocolIPbus.cpp` | `Header.v` | `HeaderProofs.v`, `Prop_Headers.v` |
| Validated memory | `ValMem.cpp`, `Buffers.cpp` | `ValMem.v`, `Handles.v` | `Prop_Handles.v` |
| Packing of operations into packets, ControlHub preamble | `ClientInterface.cpp`, `ProtocolIPbusCore.cpp`, `ProtocolIPbus.cpp`, `ProtocolControlHub.cpp` | `Client.v` | `WireSpec.v`, `Sent.v`, `SentProofs.v`, `Prop_Wire.v`, `Prop_Limits.v` |
| Reply validation | same | `Validate.v` | `ReplySpec.v`, `ReplyProofs.v`, `Prop_Reply.v` |
| Nodes named after a bus error (C102) | `detail/utilities.cpp` 46-111, `Node.cpp` 707-722, `ProtocolIPbusCore.cpp` 94-110 (the address and the names, not the rest of the message), which exceptions the transports catch | `Describe.v` | `DescribeSpec.v`, `DescribeProofs.v`, `Prop_Describe.v` |
| No exception without cause (C103) | `ProtocolUDP.cpp`, `ProtocolTCP.cpp` as in C30-C49, C64-C67 | `Udp.v`, `Tcp.v` | `CalmUdp.v`, `CalmTcp.v`, `Prop_Calm.v` |
| Working device over a working network (C104) | as C83, C84 and C103 | `Stack.v`, `System.v` | `StackCalm.v`, `Prop_StackCalm.v` |
| ControlHub: listener, life of a manager, statistics of clients (C105, C106) | `ch_tcp_listener.erl` 85-184, `ch_transaction_manager.erl` 59-229, `ch_stats.erl` 338-412, 440-520 (clients only) | `Listener.v`, `Manager.v` | `ListenerSpec.v`, `ListenerProofs.v`, `Prop_Listener.v` |
| Numbers in messages (C107) | `log_inserters.integer.hxx` 54-252, `log_inserters.integer.cpp` | `IntText.v` | `IntTextSpec.v`, `Prop_IntText.v` |
| Nodes as objects in memory (C108) | `Node.cpp` 50-167, `DerivedNodeFactory.cpp` 73-103, pointers in `NodeTreeBuilder.cpp` | `NodeHeap.v` | `NodeHeapSpec.v`, `Prop_NodeHeap.v` |
| TCP connections (C109) | `ProtocolTCP.cpp` 120-200, 540-629 | `Tcp.v` | `Prop_Connect.v` |
| Texts of exceptions (C110) | `exception.cpp` 53-107, `exception.hpp` | `ExcText.v` | `ExcTextSpec.v`, `Prop_ExcText.v` |
| The log (C111) | `log.cpp`, `log.hxx` 17-29, `LogLevels.cpp`, `log_inserters.time.*` | `Log.v` | `LogSpec.v`, `Prop_Log.v` |
| Statistics of device clients (C112) | `ch_stats.erl` 146-207, 378-412, 438-541, its calls in `ch_device_client.erl` | `DevStats.v` (on `Hub.v`, `Hub13.v`) | `DevStatsSpec.v`, `Prop_DevStats.v` |
| Opening of files (C113) | `files.cpp` 87-341, `HttpResponseGrammar.*` | `Files.v` | `FilesSpec.v`, `Prop_Files.v` |
| XML parser (C114) | `pugixml.cpp` (parser in place, default options, UTF-8 and Latin-1), `utilities/xml.cpp` 57-112 | `Xml.v` | `XmlSpec.v` (the grammar), `XmlProofs.v`, `XmlRound.v`, `XmlRound2.v`, `XmlRound3.v`, `XmlOnly.v` (the converse), `Prop_Xml.v` |
| From files to devices (C115) | `NodeTreeBuilder.cpp` 198-248, 531-554, `ConnectionManager.cpp` 59-80, 106-162, 229-284, joining the models of C114, C34, C74, C81 and C60 | `FromFile.v` | `FromFileSpec.v`, `FromFileProofs.v`, `Prop_FromFile.v` |
| The target of a ControlHub client (C116) | `ProtocolControlHub.cpp` 51-153, `ch_utils.erl` 93-96, 162-166, `ch_device_client.erl` 146-151, 874-881 | `HubTarget.v` | `Prop_HubTarget.v` |
| Classes of nodes, getNode<T> (C117) | `NodeTreeBuilder.cpp` 151-305, 531-632, `DerivedNodeFactory.cpp` 73-103, `DerivedNodeFactory.hxx` 43-63, `Node.hxx` 45-58 | `Kinds.v`, `KindsSpec.v` | `KindsProofs.v`, `Prop_Kinds.v` |
| The report on overlapping nodes (C118) | `detail/utilities.cpp` 169-230, `NodeTreeBuilder.cpp` 634-687 | `OverlapText.v` | `Prop_OverlapText.v` |
| Words and vectors in Python (C119) | `cactus_pycohal.cpp` 141-209, 264-303, `pkg/uhal/__init__.py` 27-75 | `PyVal.v` | `Prop_PyVal.v` |
| Address decoders for firmware (C120) | `gen_ipbus_addr_decode` 28-72, 101-118, 134-202, 271-380; not what it asks the device (254-262), not the text of the file | `AddrDecode.v` | `Prop_AddrDecode.v` |
| Programs that read all registers (C121) | `uhal_inspect_registers.py` 14-25, `hardware_monitoring.py` 49-97, `Node.cpp` 492-513; the expression is any function of the path, the device any function of the address | `RegDump.v` | `Prop_RegDump.v`, `Prop_DumpClient.v` |
| The tree of the GUI (C122) | `hardware.py` 8-40, 193-223; not the values shown, not the windows | `GuiTree.v` | `Prop_GuiTree.v` |
| The tables of the GUI (C123) | `hardware_table_panel.py` 73-79, 205-219, 267-280, 286-297, 310-378, `hardware_monitoring.py` 115-164; not the drawing | `Widget.v`, `PollTree.v` | `Prop_Widget.v`, `Prop_PollTree.v` |
| Packet inspectors (C101) | `IPbusInspector.cpp` 61-194, 329-435 (iterators into a vector longer than the packet; which callbacks are called with what, not their log messages) | `Inspector.v` | `InspectorSpec.v`, `InspectorProofs.v`, `Prop_Inspector.v` |
| Target (inspector and dummy hardware) | `IPbusInspector.hpp/.hxx`, `tests/DummyHardware` | `Target.v`, `Devices.v` | `DeviceLemmas.v` |
| Client and target, correct network | above | `System.v` | `Spec.v`, `SpecLemmas.v`, `Tx.v`, `E2E.v`, `E2ECor.v`, `Prop_E2E.v` |
| Several clients, one target | above | `Shared.v` | `AtomicSpec.v`, `SharedSpec.v`, `TargetRm.v`, `Prop_Shared.v` |
| All of it: clients, TCP chunks, ControlHub, lossy UDP, target | `ProtocolTCP.cpp` 205-243, 437-509 and those above | `Full.v` | `FullSpec.v`, `FullWords.v`, `FullBytes.v`, `FullSim.v`, `FullProofs.v`, `Prop_Full.v`, `Prop_Ends.v` |
| Client, any network | above | `Net.v` | `NetProofs*.v`, `Prop_Valid.v`, `Prop_Reply.v`, `Prop_Frame.v`, `Prop_Recover.v` |
| Threads, buffer pool | `ClientInterface.cpp` | `Threads.v`, `Pool.v` | `Prop_Threads.v`, `Prop_Pool.v` |
| Node tree | `Node.cpp` | `NodeTree.v` | `NodeProofs.v`, `Prop_Node.v` |
| Address tables | `NodeTreeBuilder.cpp`, `detail/utilities.cpp`, `utilities/xml.cpp`, `XmlParser.hxx` | `Builder.v`, `Attr.v`, `Overlap.v`, `Rules.v`, `Table.v`, `Cache.v` | `BuildSpec.v`, `BuilderProofs.v`, `Prop_Builder.v`, `Prop_Accept.v`, `Prop_Table.v`, `Prop_Cache.v`, `Prop_Attr.v`, `Prop_Overlap.v`, `Prop_Rules.v` |
| Owners of nodes | `HwInterface.cpp` | `Hw.v` | `Prop_Hw.v` |
| UDP | `ProtocolUDP.cpp` | `Udp.v` | `UdpProofs.v`, `Prop_Udp.v` |
| TCP | `ProtocolTCP.cpp` | `Tcp.v` | `TcpProofs*.v`, `Prop_Tcp.v` |
| Client over UDP or TCP | `ClientInterface.cpp` with the two above | `Stack.v` | `StackProofs.v`, `StackUdp.v`, `StackTcp.v`, `StackRun.v`, `StackWire.v`, `Prop_Stack.v` |
| ControlHub device client and target | `ch_device_client.erl`, `ch_device_client_registry.erl`, `DummyHardware.cpp` | `Hub.v` | `HubSpec.v`, `HubProofs.v`, `HubInv.v`, `HubAsk.v`, `HubRecover.v`, `HubSafe.v`, `Prop_Hub.v` |
| The same for IPbus 1.3 targets | `ch_device_client.erl` 212-333, 350-414, 694-770 | `Hub13.v` | `HubSpec.v`, `Prop_Hub13.v` |
| ControlHub transaction managers, allowlist | `ch_transaction_manager.erl`, `ch_device_client_registry.erl`, `ch_config.erl` | `Manager.v` | `ManSpec.v`, `Prop_Manager.v` |
| Registry of device clients | `ch_device_client_registry.erl`, `ch_transaction_manager.erl` 255-268 | `Registry.v` | `Prop_Registry.v` |
| Text of the allowlist | `ch_config.erl`, `controlhub_app.erl` | `Allowlist.v` | `AllowlistSpec.v`, `Prop_Allowlist.v` |
| Whole ControlHub for one target | the two above | `CHub.v` | `CHubSpec.v`, `Prop_CHub.v`, `Prop_Live.v` |
| PCIe and mmap | `ProtocolPCIe.cpp`, `ProtocolMmap.cpp`, `RobustSessionMutex.cpp` | `Ring.v`, `Pages.v` | `RingSpec.v`, `RingProofs*.v`, `Prop_Ring.v`, `Prop_Flush.v`, `Prop_Pages.v` |
| Clients sharing a board through PCIe or mmap | the two above with `ClientInterface.cpp` 143-180, 280-335 | `Board.v` | `BoardSpec.v`, `BoardProofs.v`, `BoardProgress.v`, `Prop_Board.v`, `Prop_BoardEnd.v` |
| Guards against bus errors | `SigBusGuard.cpp`, `SigBusGuard.hpp` | `SigBus.v` | `Prop_SigBus.v` |
| Text grammars, client factory | `grammars/src/common/*`, `ClientFactory.cpp` | `Uri.v` | `Prop_Uri.v` |
| Connection manager, statistics | `ConnectionManager.cpp`, `TimeIntervalStats.cpp` | `Conn.v` | `Prop_Conn.v` |

C++ 32-bit unsigned arithmetic is modelled in `N` with explicit reduction
modulo 2^32; undefined behaviour is a separate outcome where it can occur.

## Plan per property (written before the proofs)

* C01-C04 masks: model the branch cascade of `TrailingRightBits` literally;
  prove the trailing-zero characterisation for all masks; masked read/write
  characterised bit by bit with `N.testbit`; write-then-read by bit reasoning.
  Mask 0 makes the C++ shift by 32, undefined behaviour: excluded by hypothesis
  and recorded as a finding.
* C05-C07 headers: encode/decode as in the source; round trip by bit-field
  arithmetic; acceptance iff version nibble and type field are the protocol's.
* C08-C13 packing: state machine of `checkBufferSpace` and `implement*`; a
  ghost-free parse function (independent specification of the wire format)
  recovers the transactions from the packets; invariants over all operation
  sequences by induction.
* C14-C17 end-to-end: the device is an arbitrary state type with arbitrary
  read/write functions; the target interprets request words as the repository's
  inspector and dummy hardware do; the theorem states equality with direct
  sequential execution of the operations.  C15 adds a transition system with
  independent user / target / reply steps.
* C18, C19, C24, C25, C28, C36, C47, C48, C49, C51, C53: reading the code
  suggests these do not hold in general; the model decides: each is either
  proved under the weakest precondition found (`_partial`) and refuted by a
  concrete counterexample (`_refuted`).
* C20-C23, C26 validity: heap of handles with a validity flag; validation as in
  the source; iff-characterisation of acceptance against an independent
  relation.
* C27-C33 nodes: inductive tree; path lookup by split on '.'; iterator as the
  explicit stack machine of the source; structural induction.
* C34-C41 builder: address calculation, sorting, attribute parsing, overlap
  scan, rule selection.
* C42-C49 transports: labelled transition systems whose steps are the critical
  sections of the two threads (each holds the transport mutex); invariants by
  induction over all executions.
* C50-C54 PCIe/mmap: ring arithmetic with explicit wrap-around; multi-process
  transition system for the session counter.
* C55, C56 ControlHub: preamble and validation.
* C57-C59: corollaries over all operation interleavings and buffer reuse.
* C60-C63: direct models.
* C64-C123 were added as the model grew, in the same manner.

## Trusted base

* Coq's kernel (8.16.1).
* Axioms: none.  Every final theorem is followed by `Print Assumptions`, and
  each of them prints `Closed under the global context`.
* That the definitions of the model files say what the cited lines of `/repo`
  do.  This is by reading; nothing of `/repo` was run.  What was simplified is
  said in the comment of each definition, and in the next sections.
* That the specification side of a theorem says what the property says.  The
  specification files use none of the model's functions apart from data types.

## Not modelled

* What the messages of the log and of exceptions say (how they are put together: C107, C110, C111), `std::bad_alloc`, and the classes of exceptions
  where only "an exception" matters.
* pugixml apart from its parser (C114), Boost.Regex, file globbing (wordexp) and the name service.  Models begin with the
  parsed element (`Xml.v` and `FromFile.v`: with the bytes of the files), and with the list of files found.
* Boost.Asio sockets: the models of UDP and TCP contain the handlers, the
  queues, the condition variables and the deadline timer.  The operating system
  is any sequence of completions, errors and timer expiries allowed by the
  labels.
* Host name resolution (in C116 any function).  The Python bindings apart from `PyVal.v`, the GUI apart from `RegDump.v`, `GuiTree.v`, `Widget.v` and `PollTree.v`, the test programs apart
  from the dummy hardware that `Target.v` and `Hub.v` follow; of the ControlHub
  server everything that `Hub.v`, `Hub13.v`, `Manager.v`, `Registry.v`, `CHub.v`, `Listener.v` and `DevStats.v` do not name
  (the configuration file, the start scripts, packet statistics over time).
* The 64-bit size of `size_t`: taken as unbounded where it cannot be reached.

## Assumptions made by the models

* C120: `std_match` and `if` of VHDL as in `Prop_AddrDecode.v`; the ceiling of the logarithm in floating point is a parameter of
  the model, `C120_span_refuted` takes `int(math.ceil(math.log(2**29, 2)))` = 30 from Python; the `floor` for the selector is exact.

* pybind11 and CPython (C119): conversion of arguments, `PySlice_GetIndicesEx` and `py::make_iterator` do what their
  documentation says; `PyVal.v` has them as functions (`get_item`'s range check, `compute`, `next`).

* `System.v`, `Net.v`: a user call is one step.  The replies of packets already
  sent may come before or after it, not in its middle.  That a call does the same
  whatever replies have come is C76.  A call in which the transport refuses a
  packet is two steps of `Net.v` (`NCut`, `NThrow`): replies and failures can
  come between.
* `Net.v`: replies are looked at in the order of sending, one at a time.  That
  the transports do this is C43 and C64, under their restrictions.
* `Udp.v`, `Tcp.v`: every critical section of the transport mutex is one step.
  Completions of the io thread come one at a time, as one thread runs the
  io_service.
* Theorems named `_partial` about UDP use *quiet* executions: callbacks
  outstanding at an exception run before the exception handler clears the state.
  Those about TCP use *clean* executions: at every exception handler no callback
  is outstanding and the reply queue is empty.  Executions up to the first
  exception are of both kinds.
* `Stack.v`: the client half of `Net.v` and a transport step together on the calls
  that pass between them (send, flush, check of a reply, exception handler).  The
  bytes of a reply buffer are what the network step wrote; the transports do not
  look at them.
* `Ring.v`: the hardware counts one published reply per request page and may do
  so at any time.  A lock is `flock`; a robust mutex protects the session
  counter.  A process may stop (`LFail`) at any point where the code can throw.
  *Calm* and *tidy* executions are defined in `RingSpec.v` and said where used.
* `Hub.v`: the messages of the socket process are part of the network, which gives
  datagrams in any order, any number of times, or not at all.  A timeout may come
  at any moment.  The target keeps the replies of its last packets, as the dummy
  hardware does (`dev_ok` in `HubSpec.v`, true of a new target and of one that has
  answered packets with identifiers in order).
* `Manager.v`, `CHub.v`: a TCP chunk is one message, as the Erlang option
  `{packet, 4}` makes it.  Messages between two processes keep their order; those of
  different managers to the device client interleave in any way.  One device client
  with its target is modelled; a manager sees any responses.
* `Hw.v`: an address of a destroyed HwInterface is not used again, and a node tree
  is given to one constructor only.
* `Pages.v`: the driver stores the bytes it is given at the offset it is given.
* `Uri.v`: the part of Boost.Spirit described in the comment at its beginning.

## Findings

Behaviour of the code that the theorems show, and that differs from what the
property asks for.  Each has a theorem named `_refuted` unless said.

| Where | What happens | Theorem |
|---|---|---|
| `ProtocolIPbusCore.cpp`, block read/write | remaining bytes kept in `int32_t`: blocks from 2^29 words are cut without an exception | C18_read_refuted, C18_write_refuted |
| `ProtocolIPbusCore.cpp`, `checkBufferSpace` | limits too small for header and one word overrun the buffer | C19_v2_refuted, C19_v1_refuted |
| `ProtocolIPbus.cpp`, IPbus 1.3 | reply limit can be exceeded by 28 bytes | C11_reply_limit_v1_refuted |
| IPbus 1.3 configuration-space read | raises, but uses up a transaction id | C12_v1_config_read_refuted |
| `validate` | word count and length of a reply are not checked | C24_short_reply_refuted, C24_word_count_refuted |
| IPbus 1.3 header check | an echoed request is accepted as the reply | C25_echo_accepted_v1_refuted |
| `ValMem.cpp` | `operator=`, `mask`, `clear`, `valid(false)` change validated values | C26_assign_refuted, C26_mask_refuted, C26_clear_refuted, C26_unset_refuted |
| `Node::readBlockOffset` | size and offset added modulo 2^32 | C28_offset_refuted |
| `Node`, incremental node of size 1 | no upper bound | C28_size_one_refuted |
| `Node`, hierarchical node | block transfer repeats one address | C28_hierarchical_repeats |
| `Node::operator=` | firmware info not copied | C33_assign_refuted |
| `HwInterface`, copy assignment | nodes keep pointing to the object they were made for: after erasing from a vector they use another device's client, or a destroyed object | C78_erase_refuted |
| `HwInterface`, copy constructor | the client's node tree becomes the copy's: error messages lose the node names when the copy is destroyed | C79_copy_refuted |
| `NodeTreeBuilder`, end of address space | check uses the relative address | C36_refuted |
| numbers of more than ten digits | refused although they fit | C38_leading_zeros_refuted |
| address overlap | end address wraps, overlap not reported | C40_wrap_refuted |
| UDP, exception handler | callbacks of before the exception run after it | C42_stale_refuted, C43_stale_refuted, C45_null_refuted, C45_spurious_refuted |
| client over UDP, after an exception | a callback left over from before takes the reply of an old packet for a new one: ids start again, so the check passes, and `dispatch()` returns with the values of other registers | C84_stale_refuted |
| UDP, TCP, timeout 0 | every dispatch fails instead of never timing out | C49_refuted, C67_zero_timeout_refuted |
| TCP `Flush` | writes without looking at the number in flight | C47_refuted |
| TCP, exception handler | empties the chunks of the reply queue, but leaves them in it | C48_refuted |
| the same | a later dispatch returns normally although its last packets have not been answered | C65_return_refuted, C83_tcp_return_refuted |
| the same | the reply to a packet is then put into the buffers of a later packet, whose check fails | C64_order_refuted |
| TCP, body of a reply | read synchronously in the thread that runs the timer: no timeout | C66_stalled_refuted |
| PCIe, interrupt mode | later pages read without waiting | C51_interrupt_refuted |
| PCIe, after a timeout | a late reply is counted for the next request | C51_timeout_refuted |
| PCIe/mmap `Flush` | race between unlock and endSession | C54_refuted, C54_timeout_refuted |
| the same, with the clients | a client whose session begins in that race gets, without an error, the value another client has read from another register | C94_race_refuted |
| PCIe, interrupt mode, with the clients | an exception although nothing went wrong on the board | C94_interrupt_refuted |
| PCIe/mmap lock | a client that has filled a packet holds the lock of the board until its user calls dispatch(): all other clients wait, without a timeout | C95_holder_refuted |
| `SigBusGuard.cpp` 47-80 | a constructor that throws because SIGBUS is not blocked leaves uHAL's SIGBUS handler in the process and most signals (SIGTERM too) blocked in the thread; a later bus error is undefined behaviour, later guards keep uHAL's handler for good | C96_not_blocked_refuted |
| `SigBusGuard.cpp` 98-118 | an access that throws an exception leaves the flag sProtected set: later bus errors outside protect() come without the warning | C96_warning_refuted |
| `ch_device_client_registry.erl` 66-70 | a request that comes when the device client has just stopped (idle, or after an error) and the registry has not heard of it is lost: no reply, no error | C97_lost_refuted |
| `ch_transaction_manager.erl` 259-266 | no clause for the error of get_pid: if the UDP socket cannot be opened, the manager of the connection ends by an exception | C97_crash_refuted |
| `ch_config.erl` 161-178 | the regular expression of the allowlist is not anchored and its full stops match any character; lines of another form are accepted and mean another target or port, or none | C98_cut_refuted, C98_slips |
| `controlhub_app.erl` 37 | the result of `ch_config:init` is not looked at: with a refused allowlist the ControlHub starts, and every connection that asks for a target ends by an exception, in permissive mode too | C98_start_refuted, C98_closed |
| Inspector | a packet cut short is not refused: words behind its end (stale ones in the receive buffer) are taken for its last transaction; without any transaction, or at the end of the vector, it reads past the vector | C101_stale_refuted, C101_overrun |
| Inspector | the correct reply to a configuration space read is reported as of unknown type and the rest of the packet is not looked at | C101_config_refuted |
| Bus error | if the root of the address table is itself a register (a file with one register and its fields) or a block, a bus error at an address that it shares with another node ends the process: getLineage throws a std::runtime_error, which no one catches in the transport's thread | C102_root_refuted, C102_ends_partial |
| Bus error | a block that ends with the address space is never named: the end of the block is computed modulo 2^32 | C102_top_refuted |
| Bus error | a bus error in a read from configuration space names the ordinary registers with the same number | C102_config_refuted |
| ControlHub | each failed accept() leaves a process that nothing ends (it traps exits and waits for its socket), and the listener tries again at once | C105_leak_refuted, C105_left |
| ControlHub | a manager that fails, or is ended by the failure of its socket process, is counted as an active connection for ever | C106_crash_refuted |
| ControlHub | the reply for a blocked target is not counted as a response sent | C106_blocked_refuted |
| `Node.cpp` | assigning a node to itself deletes its children (Node.cpp 104-143) | C108_self_refuted |
| `Node.cpp` | assigning to a node one of its own descendants uses the descendant after it was deleted | C108_descendant_refuted |
| `NodeTreeBuilder.cpp` | nodes of an address table whose reading fails with an exception are never deleted (NodeTreeBuilder.cpp 186-195, 251-331) | C108_leak_refuted |
| `ProtocolTCP.cpp` | With a ControlHub a queued packet can wait in the transport without being sent. If the user pauses longer than the timeout period before dispatch(), the deadline set by connect() closes the socket, Flush writes to the closed socket and dispatch() raises an exception: the packet was never sent | `C109_pause_refuted` |
| `exception.cpp` | append() whose text reaches 65536 characters: strncat writes its final NUL one byte behind the 65536 bytes allocated | `C110_overrun_refuted` |
| `exception.cpp` | what() of an exception without text writes the description into the text; what is appended later comes behind it, so calling what() changes what a later what() gives | `C110_what_refuted` |
| `log_inserters.time.cpp` | Printing the microseconds sets the fill character of std::cout to 0 and leaves it so: after any log message the user's own padded output is padded with zeros | `C111_fill_refuted` |
| `log.cpp` | setLogLevelTo writes six flags without a lock: two overlapping calls can leave flags of no level, e.g. Debug and Info on, Notice off | `C111_mixed_refuted` |
| `ch_device_client.erl` | "Packets In" counts only replies that were expected: repeated or late datagrams of the target are received and not counted | `C112_received_refuted` |
| `ch_device_client.erl` | recover_from_timeout for IPbus 1.3 counts nothing: the report shows no timeouts of such a target however many there are | `C112_silent13`, `C112_timeout13_refuted` |
| `HttpResponseGrammar.cpp` | A reply without headers, or with one header and no reason phrase: the body is parsed as headers and the address file is empty, without an error | `C113_no_headers_refuted`, `C113_no_reason_refuted` |
| `files.cpp` | A reply that ends early is taken for complete: Content-Length is not looked at | `C113_cut_refuted` |
| `files.cpp` | An unknown host is no uhal exception (resolve is outside the try blocks); a reply without a status makes HttpGet look at an `int` that was never set, and an empty one at a `double` if Info is logged | `C113_errors_refuted`, `C113_unset_refuted` |
| `files.cpp` | The result of wordexp is ignored: after an expression that it rejects its structure is read although it was never set | `C113_expression_refuted` |
| `files.cpp` | `lFile[0]` of an empty vector for an empty file | `C113_empty_refuted` |
| `xml.cpp` | The report of an error at the end of a file reads behind the file; of one at an end of line, asks for a negative length (std::length_error instead of a report) | `C114_past_end_refuted`, `C114_length_error_refuted` |
| `xml.cpp` | The report looks at the file after the parser has written into it: line numbers too small, characters shown as '#'; the last character of the line is missing; an empty first line confuses it | `C114_line_refuted`, `C114_text_refuted`, `C114_last_refuted`, `C114_first_line_refuted` |
| `xml.cpp` | A file in Latin-1 is parsed in a converted copy, but the report uses the offset in the original file and reads behind it | `C114_latin_refuted` |
| pugixml | The parser stops at a zero byte: what follows in the file is ignored without any report | `C114_zero_refuted` |
| pugixml | Files with several top-level elements, text outside them or the same attribute twice are accepted | `C114_accepts_refuted` |
| `NodeTreeBuilder.cpp` | Elements of an address table with another name than `node`, such as a misspelt one, are left out without an exception (misspelt attributes do give one) | `C115_dropped_refuted` |
| `NodeTreeBuilder.cpp` | Of several top-level `node` elements only the first counts, without a message | `C115_second_refuted` |
| `NodeTreeBuilder.cpp` | Only four characters of the extension are compared: `board.xml~` is an address table | `C115_name_refuted` |
| `ProtocolControlHub.cpp` | A second `target` argument of a URI is ignored without a message, even if it is malformed | `C116_second_refuted` |
| `DerivedNodeFactory.cpp` | An element that includes a module and names an unknown class gets an object of the class of the module's top element, while the warning says that a plain node is returned | `C117_unknown_refuted` |
| `NodeTreeBuilder.cpp` | An object that got its class from a module has an empty class name if the including element has no class attribute | `C117_name_refuted` |
| `NodeTreeBuilder.cpp` | An exception of the check for an old report, which is outside of the try block (a name that is too long, as the whole path becomes one name), keeps a table with overlapping nodes from being read | `C118_throws_refuted` |
| `detail/utilities.cpp` | A full disk is not noticed: the log says that the report was written to a file that is empty | `C118_full_refuted` |
| `NodeTreeBuilder.cpp` | Tables whose paths differ only in `/` and `-` share one report file | `C118_name_refuted` |
| `cactus_pycohal.cpp` | An iterator of a ValVector does not keep the values alive (no `keep_alive`, as there is for nodes): `it = iter(v); del v; next(it)` reads freed memory | `C119_iter_refuted` |
| `pkg/uhal/__init__.py` | A ValWord compared or combined with a float uses only the whole part of it: a word of value 3 equals 3.5 | `C119_float_refuted` |
| `cactus_pycohal.cpp` | No index from zero on is good for a ValVector of 2^31 words or more | `C119_long_refuted` |
| `gen_ipbus_addr_decode` | The span of an endpoint with endpoints in it is taken from the last of them (`max_addr = ` in a loop, no maximum): a file is written in which addresses of an inner endpoint select another endpoint | `C120_nested_refuted` |
| `gen_ipbus_addr_decode` | `int(ceil(log(x, 2)))` in floating point is one too many for 2^29 and 2^31: correct tables are refused | `C120_span_refuted` |
| `gen_ipbus_addr_decode` | Endpoints `a.b` and `a_b` (or `A_B`) get constants of one name: VHDL that does not compile | `C120_names_refuted` |
| `uhal_inspect_registers.py` | Also reads the nodes that only group others, at the address where the group begins: with no register there, a bus error and no values at all, though every register answers | `C121_groups_refuted` |
| GUI, `hardware.py` | The comment on `__load_hardware` says that a device that cannot be had is left out; its exception leaves the constructor and no device is shown | `C122_left_out_refuted` |
| `Widget.update` (GUI) | `x in self.__id` tests for a part of a string: the table of an end point (`board10`) takes the values of another whose name is part of its name (`board1`), and is white although its own is down | `C123_other_refuted` |
| `__fill_widget` (GUI) | `nodes.remove(nodes[-1])` removes the first name that is equal: the row of node `a.b.a` has the id `b.a.a` | `C123_row_refuted` |
| mmap | odd number of words: next word cleared, or mapping overrun | C53_refuted, C72_odd_refuted |
| mmap | `max_in_flight` ignored | C68_mmap_refuted |
| PCIe/mmap page layout | pages of no words, 4 GB of pages, mmap pages over 4096 words, 7-series workaround | C70_empty_refuted, C70_wrap_refuted, C70_stride_refuted, C70_workaround_refuted |
| ControlHub, new device client | a datagram of the device client before it is carried out in place of the first new request, whose client gets the reply of the old packet | C85_stale_refuted |
| ControlHub, device client | a datagram of less than four bytes, or a first request that is no packet, ends the process; nobody is told | C86_short_refuted, C86_malformed_refuted |
| ControlHub, device client | a request sent while an idle process shuts down is never answered | C86_stopped_refuted, C99_lost_refuted |
| ControlHub, device client | a request that is not a control packet is answered before those in front of it | C86_order_refuted |
| ControlHub, transaction manager | after a chunk of fewer than three words the replies of the chunks under way, and of the next good chunk, are not sent | C88_malformed_refuted, C88_malformed_after_refuted |
| ControlHub, transaction manager | a chunk with requests for two targets: all are sent to the first | C88_two_targets_refuted |
| ControlHub, transaction manager | a chunk for another target drops the replies still to come from the target before | C88_switch_refuted |
| ControlHub, device client | the error for a malformed status reply names the address as a tuple: the manager ignores it and waits for ever | C88_unnamed_refuted |
| ControlHub, allowlist | of two ports of one address only the last is let through | C90_ports_refuted |
| ControlHub, allowlist | a blocked chunk of several requests gets one reply | C90_blocked_count_refuted |
| URI grammar | path without port goes to the host; text left over is ignored | C61_no_port_refuted, C73_whole_refuted |
| file lists | white space in names dropped | C74_space_refuted |
| node parameters | text silently cut, also at white space | C75_cut_refuted |
| firmware information | text after an item without a name silently dropped | C80_cut_refuted |
| `TimeIntervalStats` | sum not initialised, `clear` pops an empty queue, sum not reset | C63_mean_refuted, C63_clear_refuted, C63_mean_after_clear_refuted |
| `ch_device_client.erl` 256-291, 375-392, IPbus 1.3 | any datagram is taken for the reply to the request in flight: a repeated reply is given to the next client, whose request has not been carried out | C93_dup_reply_refuted |
| `ch_device_client.erl` 350-361, IPbus 1.3 | a repeated request datagram is carried out twice (no packet identifiers) | C93_dup_request_refuted |

## Tests of the theorems

`seeded/LOG.jsonl` records edits of the model that resemble programming errors,
made in a copy, with the theorems whose proofs failed.  Where a theorem still
held although its claim was false of the edited program it was strengthened; the
field `tightened` says so.

## Corrections to the model

* `NodeTree.v`, `inc_of`: up to commit 5a0b12c the model advanced the address of
  a block transfer for every mode but NON_INCREMENTAL.  The code does so for
  INCREMENTAL only (`ProtocolIPbusCore.cpp` 334, 355, 415, 433).  The
  specification `meant` in `Prop_Node.v` had the same error, so the theorems did
  not show it: C27_granted and C27_only were wrong for blocks through
  hierarchical nodes, and C28_size_one_refuted claimed for hierarchical nodes
  what is true of incremental ones only.  Model, specification and theorems are
  corrected; C28_hierarchical_repeats states the behaviour.
* `Net.v`: up to commit 5890c17 a call failed in the transport only when a
  failure had been stored before it began.  A failure stored while a call is
  sending its packets, and an exception of connect(), are now events (`NCut`).
  The theorems about `Net.v` kept their statements.
* `Uri.v`, `parse_params`: up to commit a92d584 the model passed over white space
  within the parameters.  The rules of that grammar, unlike the others, are
  declared without a skipper (`NodeTreeParametersGrammar.hpp` 51-62).  C75_params
  as it was (no white space) held of both.
* `Builder.v`, `set_fw`: up to commit 005c017 the grammar of firmware information
  could not throw.  `BuildSpec.v`, `describes`: up to the same commit it did not
  say that attributes have known names, that numbers have at most ten digits, and
  which mode a node without a mode attribute has, so a tree could be described
  although the code refuses it.  C81_accepted now needs the exact statement.
