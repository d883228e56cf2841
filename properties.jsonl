{"id": "C01", "title": "Mask shift is the number of trailing zeros", "statement": "For every non-zero 32-bit mask, the shift that masked reads and masked writes apply is the position of the lowest set bit of the mask: mask is divisible by 2^shift and not by 2^(shift+1).", "quantifier": "all 2^32-1 non-zero masks", "why_tests_cant": "the function is a branch cascade over 32-bit constants; testing a handful of masks does not cover the 2^32 inputs", "anchors": ["uhal/uhal/src/common/utilities/bits.cpp:TrailingRightBits", "uhal/uhal/src/common/ValMem.cpp:ValWord::value", "uhal/uhal/src/common/ClientInterface.cpp:write(masked)"]}
{"id": "C02", "title": "Masked read returns exactly the masked field", "statement": "Reading a register through a non-zero mask yields a number whose bit i is bit (i+lowest set bit of mask) of the register when that position is in the mask, and 0 otherwise; nothing outside the mask is visible.", "quantifier": "all register contents and all non-zero masks", "why_tests_cant": "2^64 combinations of register content and mask", "anchors": ["uhal/uhal/src/common/ValMem.cpp:ValWord<uint32_t>::value", "uhal/uhal/src/common/utilities/bits.cpp:TrailingRightBits"]}
{"id": "C03", "title": "Masked write is refused exactly when the value does not fit the field", "statement": "Writing value v through mask m is accepted if and only if v, shifted up to the lowest set bit of m, loses no bit off the top of the word and sets no bit outside m; otherwise an exception is raised and nothing at all is queued for the hardware.", "quantifier": "all addresses, values, non-zero masks and client states", "why_tests_cant": "the acceptance condition ranges over 2^64 (value, mask) pairs and must leave every client state untouched on refusal", "anchors": ["uhal/uhal/src/common/ClientInterface.cpp:write(addr,value,mask)"]}
{"id": "C04", "title": "Masked write changes only the field and reads back", "statement": "An accepted masked write leaves every register bit outside the mask as it was, sets the bits inside the mask to the value, leaves every other register untouched, and a later masked read through the same mask returns the value written.", "quantifier": "all addresses, register contents, values and masks, on a memory-like target", "why_tests_cant": "universally quantified over memory contents, masks and values and over how the requests are packed", "anchors": ["uhal/uhal/src/common/ClientInterface.cpp:write(addr,value,mask)", "uhal/uhal/src/common/ProtocolIPbusCore.cpp:implementRMWbits"]}
{"id": "C05", "title": "IPbus 2.0 transaction header round trip", "statement": "Every transaction header the client builds for IPbus 2.0 decodes to the same transaction type, word count, transaction ID modulo 4096 and info code, provided the word count is at most 255; it is a 32-bit word with protocol version 2.", "quantifier": "all transaction types the protocol has, word counts 0..255, all IDs, all info codes", "why_tests_cant": "the header space is 2^32 words", "anchors": ["uhal/uhal/src/common/ProtocolIPbus.cpp:IPbus<2,minor>::CalculateHeader", "uhal/uhal/src/common/ProtocolIPbus.cpp:IPbus<2,minor>::ExtractHeader"]}
{"id": "C06", "title": "IPbus 1.3 transaction header round trip", "statement": "Every transaction header the client builds for IPbus 1.3 decodes to the same transaction type, word count, transaction ID modulo 2048 and the low two bits of the info code, provided the word count is at most 511; it is a 32-bit word with protocol version 1.", "quantifier": "all transaction types the protocol has, word counts 0..511, all IDs, all info codes", "why_tests_cant": "the header space is 2^32 words", "anchors": ["uhal/uhal/src/common/ProtocolIPbus.cpp:IPbus<1,minor>::CalculateHeader", "uhal/uhal/src/common/ProtocolIPbus.cpp:IPbus<1,minor>::ExtractHeader"]}
{"id": "C07", "title": "Header decoding accepts exactly the protocol's own headers", "statement": "A received 32-bit word is accepted as a transaction header if and only if its version nibble is the client's protocol version and its type field is one of the protocol's transaction types; two different transaction types never share an encoding.", "quantifier": "all 2^32 words, both protocol versions", "why_tests_cant": "exhaustive over 2^32 words and both versions", "anchors": ["uhal/uhal/src/common/ProtocolIPbus.cpp:ExtractHeader"]}
{"id": "C08", "title": "Block write sends every word once, in order, to the right address", "statement": "A block write of n words (n < 2^29) is sent as consecutive write transactions whose payloads concatenated are exactly the n words in order; for incremental mode word k goes to address base+k (mod 2^32), for non-incremental mode every word goes to the base address, whatever is already queued and however the block is split over transactions and packets.", "quantifier": "all base addresses, all word vectors of length below 2^29, both modes, every fill level of the current packet, every packet size limit of at least 32 bytes", "why_tests_cant": "the splitting depends on block length, current fill level and packet limits together; tests sample a few lengths", "anchors": ["uhal/uhal/src/common/ProtocolIPbusCore.cpp:implementWriteBlock", "uhal/uhal/src/common/ClientInterface.cpp:checkBufferSpace"]}
{"id": "C09", "title": "Block read fetches every word once into the right slot", "statement": "A block read of n words (n < 2^29) is sent as consecutive read transactions whose word counts add up to n; the k-th word returned is stored in element k of the result and comes from address base+k (incremental, mod 2^32) or the base address (non-incremental), whatever is already queued.", "quantifier": "all base addresses, sizes below 2^29, both modes, every fill level of the current packet and every packet size limit of at least 32 bytes", "why_tests_cant": "depends on block length, fill level and packet limits together", "anchors": ["uhal/uhal/src/common/ProtocolIPbusCore.cpp:implementReadBlock", "uhal/uhal/src/common/ClientInterface.cpp:checkBufferSpace"]}
{"id": "C10", "title": "No transaction exceeds the protocol's word-count limit", "statement": "Every transaction in every packet sent carries a word count of at most 255 (IPbus 2.0) or 511 (IPbus 1.3), so that the header's word-count field never truncates it and always equals the number of data words that follow or are expected back.", "quantifier": "all operation sequences and block sizes below 2^29", "why_tests_cant": "an invariant over every operation history", "anchors": ["uhal/uhal/src/common/ProtocolIPbusCore.cpp:implementWriteBlock", "uhal/uhal/src/common/ProtocolIPbusCore.cpp:implementReadBlock"]}
{"id": "C11", "title": "No packet exceeds the transport's size limits", "statement": "For every sequence of operations, each packet handed to the transport has at most the maximum send size in bytes and its expected reply at most the maximum reply size, provided those limits are at least a small fixed minimum; the send buffer is never written past its end.", "quantifier": "all operation sequences, all limits above the minimum, both protocol versions, with and without ControlHub preamble", "why_tests_cant": "an invariant over every operation history and every limit; overflow would be memory corruption", "anchors": ["uhal/uhal/src/common/ClientInterface.cpp:checkBufferSpace", "uhal/uhal/include/uhal/TemplateDefinitions/Buffers.hxx:send", "uhal/uhal/src/common/ProtocolIPbus.cpp:preamble,predispatch"]}
{"id": "C12", "title": "Transaction IDs run consecutively", "statement": "Apart from the fixed padding transactions of IPbus 1.3, the transactions of all packets, taken in the order they are sent, carry consecutive IDs modulo the protocol's ID range, starting from the client's counter.", "quantifier": "all operation sequences", "why_tests_cant": "an invariant over every history, including automatic packet splits", "anchors": ["uhal/uhal/src/common/ProtocolIPbusCore.cpp:mTransactionCounter"]}
{"id": "C13", "title": "Expected reply size equals what a conforming target sends", "statement": "For every packet sent, the number of reply bytes the client provides room for equals the number of bytes a target that obeys the protocol returns for that packet.", "quantifier": "all operation sequences", "why_tests_cant": "must hold for every packet composition; a mismatch misaligns all later data", "anchors": ["uhal/uhal/src/common/Buffers.cpp:receive,replyCounter", "uhal/uhal/src/common/ProtocolIPbusCore.cpp"]}
{"id": "C14", "title": "End-to-end: queued operations act on the device exactly as written", "statement": "For every device (any state, any read and write behaviour, including reads with side effects such as FIFOs) that answers packets in order, queueing any sequence of reads, writes, masked writes, block transfers and read-modify-writes and dispatching makes the device perform exactly the bus accesses those operations denote, in program order and nothing else, and every result handle then returns the value the device produced.", "quantifier": "all devices, all operation sequences, all packet-size limits, both protocol versions, any number of dispatches", "why_tests_cant": "refinement over all programs and all device behaviours", "anchors": ["uhal/uhal/src/common/ProtocolIPbusCore.cpp", "uhal/uhal/src/common/ClientInterface.cpp:dispatch,checkBufferSpace", "uhal/tests/src/common/DummyHardware.cpp"]}
{"id": "C15", "title": "End-to-end holds for every interleaving of queueing, target and reply processing", "statement": "The result of the previous property does not depend on when the transport hands packets to the target or delivers replies relative to further queueing: under every schedule in which packets and replies stay in order, the final device state and all returned values are the same.", "quantifier": "all schedules of user operations, target steps and reply deliveries", "why_tests_cant": "schedules are unbounded; tests see a few timings", "anchors": ["uhal/uhal/src/common/ClientInterface.cpp:checkBufferSpace", "uhal/uhal/src/common/ProtocolUDP.cpp:implementDispatch", "uhal/uhal/src/common/ProtocolTCP.cpp:implementDispatch"]}
{"id": "C16", "title": "Packet limits are invisible to the user", "statement": "Two clients that differ only in packet size limits (and in transport) produce the same device accesses and the same returned values for the same sequence of operations.", "quantifier": "all pairs of limits above the minimum, all operation sequences and devices", "why_tests_cant": "relational property over all programs", "anchors": ["uhal/uhal/src/common/ClientInterface.cpp:checkBufferSpace"]}
{"id": "C17", "title": "Dispatch with nothing queued sends nothing", "statement": "Dispatching when no operation has been queued since the last dispatch sends no packet and changes nothing; dispatching always leaves nothing queued.", "quantifier": "all client states", "why_tests_cant": "must hold for every reachable state", "anchors": ["uhal/uhal/src/common/ClientInterface.cpp:dispatch"]}
{"id": "C18", "title": "Very large block transfers are not silently truncated", "statement": "Every block transfer of n words either transfers all n words or raises an exception, for every n representable in the API (n < 2^32).", "quantifier": "all block sizes", "why_tests_cant": "needs blocks of 2 GiB and more; no test allocates them", "anchors": ["uhal/uhal/src/common/ProtocolIPbusCore.cpp:implementReadBlock,implementWriteBlock (int32_t lPayloadByteCount)"]}
{"id": "C19", "title": "Tiny packet limits never overrun the buffer", "statement": "For every configured maximum payload size, including very small ones, packing operations never writes past the end of the send buffer.", "quantifier": "all values of the max_payload_size URI argument", "why_tests_cant": "free space is computed by unsigned subtraction; only particular small limits expose the wrap-around", "anchors": ["uhal/uhal/src/common/ClientInterface.cpp:checkBufferSpace", "uhal/uhal/src/common/ProtocolUDP.cpp:UDP(max_payload_size)"]}
{"id": "C20", "title": "A value is unreadable until its reply has been checked", "statement": "A value or block returned by a read cannot be read before the packet holding (the last part of) that read has been answered and its reply validated: until then every access to its content raises NonValidatedMemory.", "quantifier": "all operation sequences and all reply histories", "why_tests_cant": "quantifies over all histories and partial failures", "anchors": ["uhal/uhal/src/common/ValMem.cpp", "uhal/uhal/src/common/Buffers.cpp:validate", "uhal/uhal/src/common/ClientInterface.cpp:validate"]}
{"id": "C21", "title": "After a dispatch without exception every handle is readable", "statement": "If dispatch returns normally, every value, block and write acknowledgement obtained before it is readable afterwards and keeps its value from then on, whatever else is queued or dispatched later.", "quantifier": "all operation sequences", "why_tests_cant": "quantifies over all histories", "anchors": ["uhal/uhal/src/common/ClientInterface.cpp:validate(Buffers)", "uhal/uhal/src/common/Buffers.cpp:validate"]}
{"id": "C22", "title": "A reply is accepted exactly when every header matches its request", "statement": "Reply validation of a packet succeeds if and only if each transaction's reply header is a valid header of the protocol with the same transaction ID and type as the request and a zero info code (and, for IPbus 2.0, the packet header is the one sent); otherwise it reports the first offending transaction and no value of that packet becomes readable.", "quantifier": "all packets and all reply contents", "why_tests_cant": "2^32 possible words per header for packets of any length", "anchors": ["uhal/uhal/src/common/ProtocolIPbusCore.cpp:validate", "uhal/uhal/src/common/ProtocolIPbus.cpp:IPbus<2,minor>::validate", "uhal/uhal/src/common/ClientInterface.cpp:validate"]}
{"id": "C23", "title": "A bus error never yields readable data", "statement": "If the target reports a non-zero info code for any transaction of a packet, dispatch raises an exception and no value, block or acknowledgement completed by that packet becomes readable; blocks split over packets stay unreadable if any of their parts failed.", "quantifier": "all packets, all positions of the error, all block splits", "why_tests_cant": "quantifies over positions and splits", "anchors": ["uhal/uhal/src/common/ProtocolIPbusCore.cpp:validate", "uhal/uhal/src/common/ClientInterface.cpp:validate"]}
{"id": "C24", "title": "A reply with the wrong number of words is rejected", "statement": "If the target's reply header announces a word count different from the one requested, or the reply is shorter than expected, dispatch raises an exception rather than making incomplete data readable.", "quantifier": "all packets and reply lengths", "why_tests_cant": "adversarial replies of any length", "anchors": ["uhal/uhal/src/common/ProtocolIPbusCore.cpp:validate", "uhal/uhal/src/common/ProtocolUDP.cpp:read_callback", "uhal/uhal/src/common/ProtocolTCP.cpp:read_callback"]}
{"id": "C25", "title": "A request echoed back is not taken for a reply", "statement": "If the target (or a loop in the network) returns the request header itself instead of a response header, validation fails.", "quantifier": "all request headers, both protocol versions", "why_tests_cant": "exhaustive over headers", "anchors": ["uhal/uhal/src/common/ProtocolIPbus.cpp:ExtractHeader", "uhal/uhal/src/common/ProtocolIPbusCore.cpp:validate"]}
{"id": "C26", "title": "Validated values are immutable and shared between copies", "statement": "Once readable, a single value cannot be changed through value(x), nor a block through push_back/assign/value(v); copies of a handle observe the same content and validity.", "quantifier": "all sequences of handle operations", "why_tests_cant": "sequence property over aliased handles", "anchors": ["uhal/uhal/src/common/ValMem.cpp"]}
{"id": "C27", "title": "Permissions are enforced on every access", "statement": "A read of any kind through a node without read permission, or a write of any kind through a node without write permission, raises an exception and queues nothing; with permission (and within bounds) exactly the corresponding client operation is queued at the node's address and mask.", "quantifier": "all nodes, operations and arguments", "why_tests_cant": "all combinations of node attributes and entry points", "anchors": ["uhal/uhal/src/common/Node.cpp:read,write,readBlock,writeBlock,readBlockOffset,writeBlockOffset"]}
{"id": "C28", "title": "Block transfers through a node stay inside the node", "statement": "A block transfer through a node with mode incremental and size s touches only addresses base .. base+s-1, for every offset and length the API accepts.", "quantifier": "all node sizes, offsets and lengths in the API's range", "why_tests_cant": "the bound check is in fixed-width arithmetic; overflow cases need extreme values", "anchors": ["uhal/uhal/src/common/Node.cpp:readBlock,writeBlock,readBlockOffset,writeBlockOffset"]}
{"id": "C29", "title": "hasNode agrees with getNode", "statement": "For every tree and every path string, hasNode(path) is true exactly when getNode(path) returns a node instead of raising.", "quantifier": "all trees and all strings", "why_tests_cant": "all trees and all strings, including empty components", "anchors": ["uhal/uhal/src/common/Node.cpp:hasNode,getNode"]}
{"id": "C30", "title": "getNodes lists every descendant once, by a path that resolves to it", "statement": "In a tree where siblings have distinct dot-free non-empty ids, getNodes() lists exactly the relative paths of all proper descendants, parents before children, each once, and getNode on each listed path yields that very descendant.", "quantifier": "all trees", "why_tests_cant": "induction over all trees", "anchors": ["uhal/uhal/src/common/Node.cpp:getNodes,const_iterator::next,getRelativePath,getNode"]}
{"id": "C31", "title": "getPath round trip", "statement": "For every node of a tree with well-formed ids, looking up the node's relative path from an ancestor returns the node, and a lookup of a.b equals the lookup of b in the lookup of a.", "quantifier": "all trees, nodes and paths", "why_tests_cant": "induction over paths and trees", "anchors": ["uhal/uhal/src/common/Node.cpp:getPath,getRelativePath,getNode"]}
{"id": "C32", "title": "Node iteration visits the whole tree once", "statement": "Iterating from begin() to end() over a node visits the node and all its descendants, each exactly once, in depth-first order, and then stops.", "quantifier": "all trees", "why_tests_cant": "the iterator is a mutable stack machine; correctness is by induction over trees", "anchors": ["uhal/uhal/src/common/Node.cpp:const_iterator::next"]}
{"id": "C33", "title": "Copying a tree preserves every observable of it", "statement": "A clone of a node tree (which every getDevice call and every copy of a HwInterface makes) has the same ids, addresses, masks, permissions, modes, sizes and the same lookup results as the original.", "quantifier": "all trees", "why_tests_cant": "induction over trees; duplicates and sort order interact", "anchors": ["uhal/uhal/src/common/Node.cpp:Node(const Node&),operator=,clone"]}
{"id": "C34", "title": "Absolute address is the sum of relative addresses", "statement": "For every address-table tree that builds without exception, the address of each node is the sum modulo 2^32 of its own and all its ancestors' relative addresses.", "quantifier": "all address-table trees", "why_tests_cant": "induction over trees", "anchors": ["uhal/uhal/src/common/NodeTreeBuilder.cpp:calculateHierarchicalAddresses"]}
{"id": "C35", "title": "Children are kept, and ordered by address", "statement": "After building, each node's children are a permutation of those in the file, sorted by non-decreasing absolute address.", "quantifier": "all trees", "why_tests_cant": "induction over trees and sorting", "anchors": ["uhal/uhal/src/common/NodeTreeBuilder.cpp:calculateHierarchicalAddresses (std::sort)"]}
{"id": "C36", "title": "Block nodes never run past the end of the address space", "statement": "A tree containing an incremental block whose last word would lie beyond address 2^32-1 is refused when built.", "quantifier": "all trees with block nodes", "why_tests_cant": "fixed-width arithmetic on the sum of nested offsets", "anchors": ["uhal/uhal/src/common/NodeTreeBuilder.cpp:calculateHierarchicalAddresses"]}
{"id": "C37", "title": "Node ids obey the naming rules", "statement": "Every node created from an address table has an id that is non-empty, contains no dot and has no leading or trailing space; others are refused.", "quantifier": "all strings", "why_tests_cant": "all strings", "anchors": ["uhal/uhal/src/common/NodeTreeBuilder.cpp:setUid"]}
{"id": "C38", "title": "Numeric attributes are parsed exactly", "statement": "An unsigned attribute (address, mask, size) that is accepted yields exactly the number its decimal or hexadecimal (0x, 0X, x, X prefix) digits denote, which is below 2^32; every string with another character, and every string denoting 2^32 or more, is refused.", "quantifier": "all strings", "why_tests_cant": "all strings", "anchors": ["uhal/uhal/src/common/utilities/xml.cpp:GetXMLattribute(uint32_t)"]}
{"id": "C39", "title": "Mode and size attributes are accepted only in consistent combinations", "statement": "Incremental nodes always have a size attribute; single and hierarchical nodes never have a size above 1; a masked node is single; an unknown permission or mode word is refused.", "quantifier": "all attribute combinations", "why_tests_cant": "all combinations of attribute presence and values", "anchors": ["uhal/uhal/src/common/NodeTreeBuilder.cpp:setModeAndSize,setPermissions", "uhal/uhal/src/common/NodeTreeBuilder.cpp:bitmaskNodeCreator"]}
{"id": "C40", "title": "Address overlap report is sound and complete", "statement": "getAddressOverlaps reports each pair of different nodes below the given node, once, if and only if they occupy a common address (and, for two single registers, a common mask bit), except a full-width single register and its own children; hierarchical nodes are never reported.", "quantifier": "all trees in which no block is empty or wraps around 2^32", "why_tests_cant": "the scan over the sorted list stops early; correctness needs the sortedness invariant", "anchors": ["uhal/uhal/src/common/detail/utilities.cpp:getAddressOverlaps,compareNodeAddr"]}
{"id": "C41", "title": "Attribute rules select a unique handler", "statement": "The rule parser runs exactly one handler: the only matching rule, or, among several matching, the one requiring strictly the most attributes; if none or a tie, or an unknown attribute, it raises.", "quantifier": "all rule sets (up to 64 attributes) and attribute sets", "why_tests_cant": "all rule sets", "anchors": ["uhal/uhal/include/uhal/TemplateDefinitions/XmlParser.hxx:Parser::operator(),addRule"]}
{"id": "C42", "title": "UDP: number of unanswered packets is bounded", "statement": "Under every schedule of user thread, socket callbacks and timeouts, the UDP client never has more packets sent and unanswered than the protocol's limit (1 for IPbus 1.3, 16 for IPbus 2.0).", "quantifier": "all schedules", "why_tests_cant": "two threads with callbacks; all interleavings", "anchors": ["uhal/uhal/src/common/ProtocolUDP.cpp:implementDispatch,write,write_callback,read_callback"]}
{"id": "C43", "title": "UDP: packets go out once each, in order, and replies are matched in order", "statement": "Under every schedule each dispatched packet is sent at most once, in dispatch order, and the n-th reply datagram received is checked against the n-th packet sent.", "quantifier": "all schedules", "why_tests_cant": "all interleavings", "anchors": ["uhal/uhal/src/common/ProtocolUDP.cpp"]}
{"id": "C44", "title": "UDP: dispatch returns normally only after all replies were validated", "statement": "If the final flush of a dispatch returns without exception, every packet handed over has been sent, answered and validated; if any reply failed validation or a timeout or socket error occurred, dispatch raises.", "quantifier": "all schedules, all error positions", "why_tests_cant": "all interleavings and error points", "anchors": ["uhal/uhal/src/common/ProtocolUDP.cpp:Flush,read_callback,WaitOnConditionalVariable"]}
{"id": "C45", "title": "UDP: buffers are neither lost nor duplicated, and the client recovers after an exception", "statement": "At every moment each packet buffer is in exactly one place (pool, being filled, queued, in flight); after an exception everything queued or in flight has been dropped back to the pool and the next dispatch starts from a clean state.", "quantifier": "all schedules, all exception points", "why_tests_cant": "all interleavings and exception points", "anchors": ["uhal/uhal/src/common/ProtocolUDP.cpp:dispatchExceptionHandler", "uhal/uhal/src/common/ClientInterface.cpp:returnBufferToPool"]}
{"id": "C46", "title": "TCP: stream framing", "statement": "Every chunk sent over TCP consists of a 4-byte big-endian length equal to the number of bytes following and the packets of the chunk concatenated in dispatch order; concatenating all chunks gives all dispatched packets in order.", "quantifier": "all schedules and packet sizes", "why_tests_cant": "all batchings, which depend on timing", "anchors": ["uhal/uhal/src/common/ProtocolTCP.cpp:write"]}
{"id": "C47", "title": "TCP: number of unanswered packets is bounded by the protocol limit", "statement": "Under every schedule the TCP client never has more unanswered packets than the protocol's limit (1 for IPbus 1.3, 16 for IPbus 2.0, 60 for ControlHub).", "quantifier": "all schedules", "why_tests_cant": "all interleavings", "anchors": ["uhal/uhal/src/common/ProtocolTCP.cpp:implementDispatch,write_callback,Flush", "uhal/uhal/include/uhal/ProtocolControlHub.hpp:getMaxNumberOfBuffers"]}
{"id": "C48", "title": "TCP: recovery after an exception", "statement": "After an exception all queues of the TCP client are empty, so that the next dispatch cannot be affected by packets of the failed one.", "quantifier": "all exception points", "why_tests_cant": "exception at every possible schedule point", "anchors": ["uhal/uhal/src/common/ProtocolTCP.cpp:dispatchExceptionHandler"]}
{"id": "C49", "title": "A zero timeout means no timeout", "statement": "After setTimeoutPeriod(0) operations whose replies arrive, however late, complete without a timeout exception.", "quantifier": "all reply delays", "why_tests_cant": "time is unbounded", "anchors": ["uhal/uhal/src/common/ClientInterface.cpp:setTimeoutPeriod", "uhal/uhal/src/common/ProtocolUDP.cpp:write_callback,read_callback"]}
{"id": "C50", "title": "PCIe: each reply is read from the page its request was written to", "statement": "For every number of pages, start index and sequence of packets, the page read for a reply is the page its request was written to, and a page is never overwritten before its reply was read.", "quantifier": "all page counts, start indices and packet sequences", "why_tests_cant": "modular arithmetic over all ring positions", "anchors": ["uhal/uhal/src/common/ProtocolPCIe.cpp:write,read,implementDispatch"]}
{"id": "C51", "title": "PCIe: a reply page is read only after the hardware published it", "statement": "In polling mode and in interrupt mode, a reply page is read only when the hardware has published at least as many replies as the client has read.", "quantifier": "all schedules of hardware publication and client reads", "why_tests_cant": "interleaving with hardware", "anchors": ["uhal/uhal/src/common/ProtocolPCIe.cpp:read"]}
{"id": "C52", "title": "PCIe and mmap: copying a reply never reads or writes out of bounds", "statement": "Whatever word count the reply page announces, the copy into the user's reply buffers stays within them and within the words read from the page.", "quantifier": "all announced lengths and reply layouts", "why_tests_cant": "hostile or corrupted hardware can announce any 32-bit value", "anchors": ["uhal/uhal/src/common/ProtocolPCIe.cpp:read", "uhal/uhal/src/common/ProtocolMmap.cpp:read"]}
{"id": "C53", "title": "mmap: writing a packet touches only that packet's words", "statement": "Writing a request packet of n words to its page changes exactly the page header word and the n words following it.", "quantifier": "all packet lengths and page sizes", "why_tests_cant": "the trailing partial double-word is only exercised by particular lengths", "anchors": ["uhal/uhal/src/common/ProtocolMmap.cpp:File::write"]}
{"id": "C54", "title": "PCIe and mmap: processes sharing a device stay in step", "statement": "When several processes use the same device one after another, each using the lock and session counter, every packet is written to the page the hardware expects next, whatever the order of sessions.", "quantifier": "all interleavings of sessions of any number of processes", "why_tests_cant": "multi-process schedules", "anchors": ["uhal/uhal/src/common/ProtocolPCIe.cpp:connect,write", "uhal/uhal/src/common/detail/RobustSessionMutex.cpp"]}
{"id": "C55", "title": "ControlHub: request preamble is consistent", "statement": "Every packet sent through the ControlHub starts with the target's IP address and port and the number of 32-bit words of IPbus payload that follow.", "quantifier": "all operation sequences", "why_tests_cant": "depends on every packet composition; patched after filling", "anchors": ["uhal/uhal/src/common/ProtocolControlHub.cpp:preamble,predispatch"]}
{"id": "C56", "title": "ControlHub: replies for another target or with an error code are rejected", "statement": "A ControlHub reply is accepted only if its address and port are those of the request, its error code is zero and the IPbus reply inside is valid; error codes for timeouts raise the timeout exception, other codes the generic one.", "quantifier": "all reply preambles", "why_tests_cant": "all 16-bit codes and 32-bit addresses", "anchors": ["uhal/uhal/src/common/ProtocolControlHub.cpp:validate"]}
{"id": "C57", "title": "Queued operations from several threads are serialised", "statement": "When several threads queue operations and dispatch on one client, the device sees each operation as one uninterrupted group of accesses, each thread's operations in its own order, and a thread that dispatched without exception can read all values it queued before.", "quantifier": "all thread interleavings of API calls", "why_tests_cant": "all interleavings", "anchors": ["uhal/uhal/src/common/ClientInterface.cpp (mUserSideMutex)"]}
{"id": "C58", "title": "A failed dispatch does not contaminate the next one", "statement": "After an exception during dispatch, operations queued before it are discarded and a following sequence of operations and dispatch behaves as on a fresh client.", "quantifier": "all failure points and all later operation sequences", "why_tests_cant": "all histories", "anchors": ["uhal/uhal/src/common/ClientInterface.cpp:dispatch,dispatchExceptionHandler", "uhal/uhal/src/common/ProtocolIPbusCore.cpp:dispatchExceptionHandler"]}
{"id": "C59", "title": "Reused packet buffers carry nothing over", "statement": "A packet built in a recycled buffer contains only the transactions queued since the buffer was taken from the pool.", "quantifier": "all reuse histories", "why_tests_cant": "all histories", "anchors": ["uhal/uhal/src/common/ClientInterface.cpp:updateCurrentBuffers", "uhal/uhal/src/common/Buffers.cpp:clear"]}
{"id": "C60", "title": "Connection lookup returns the entry from the connection file", "statement": "After loading connection files without exception, getDevices lists each connection id once in sorted order, and looking up an id gives the first entry with that id; two different entries with one id are refused.", "quantifier": "all sets of connection entries", "why_tests_cant": "all inputs", "anchors": ["uhal/uhal/src/common/ConnectionManager.cpp:CallBack,getDevices,getDevice"]}
{"id": "C61", "title": "URI printing and parsing are inverse", "statement": "For a well-formed URI record, parsing its printed form gives back the same record.", "quantifier": "all URI records without reserved characters in the wrong field", "why_tests_cant": "all strings", "anchors": ["uhal/grammars/src/common/URI.cpp:toString", "uhal/grammars/src/common/URIGrammar.cpp"]}
{"id": "C62", "title": "Only registered and activated protocols create clients", "statement": "getClient creates a client of the type registered first for the URI's protocol; an unregistered protocol, or a user-defined one not in the activation list, is refused.", "quantifier": "all registration histories and URIs", "why_tests_cant": "all histories", "anchors": ["uhal/uhal/src/common/ClientFactory.cpp:getClient", "uhal/uhal/include/uhal/TemplateDefinitions/ClientFactory.hxx:add"]}
{"id": "C63", "title": "Interval statistics are consistent", "statement": "After any sequence of measurements min <= mean <= max, min and max are attained, and the five most recent values are kept; clearing at any time resets to empty.", "quantifier": "all measurement sequences", "why_tests_cant": "all sequences", "anchors": ["uhal/uhal/src/common/utilities/TimeIntervalStats.cpp"]}
{"id": "C64", "title": "TCP: replies are checked in order, packets are neither lost nor duplicated", "statement": "Under every schedule the packets of each chunk sent over TCP are checked in the order they were sent, once each, after the reply to the chunk has been received completely and before the reply to the next chunk is; while no failure is stored every packet handed over is in exactly one place (checked, awaiting its reply, being sent, queued).", "quantifier": "all schedules, all batchings", "why_tests_cant": "all interleavings of the user's thread, callbacks and the unlocked part of read_callback", "anchors": ["uhal/uhal/src/common/ProtocolTCP.cpp:write_callback,read_callback"]}
{"id": "C65", "title": "TCP: dispatch returns normally only after all replies were validated, and always ends while the device answers", "statement": "If the final flush of a dispatch over TCP returns without exception, every packet handed over has been sent, answered and validated and no failure was stored; a stored failure makes the next dispatch or flush raise; while dispatch waits, the transport always has a step to make (at the latest the deadline), and only finitely many are possible.", "quantifier": "all schedules, all error positions", "why_tests_cant": "all interleavings and error points; termination", "anchors": ["uhal/uhal/src/common/ProtocolTCP.cpp:Flush,read_callback,CheckDeadline,WaitOnConditionalVariable"]}
{"id": "C66", "title": "TCP: a timeout also ends a dispatch whose reply stops in the middle", "statement": "If the device sends the length of a reply and then fewer bytes than announced, dispatch raises a timeout exception after the timeout period.", "quantifier": "all schedules", "why_tests_cant": "needs a device that stalls, and no finite wait shows that a dispatch never ends", "anchors": ["uhal/uhal/src/common/ProtocolTCP.cpp:read_callback,CheckDeadline"]}
{"id": "C67", "title": "TCP: a zero timeout means no timeout", "statement": "After setTimeoutPeriod(0) a dispatch over TCP whose replies arrive, however late, completes without a timeout exception.", "quantifier": "all schedules and reply delays", "why_tests_cant": "time is unbounded", "anchors": ["uhal/uhal/src/common/ClientInterface.cpp:setTimeoutPeriod", "uhal/uhal/src/common/ProtocolTCP.cpp:write_callback,read_callback"]}
{"id": "C68", "title": "PCIe and mmap: max_in_flight is respected", "statement": "When the URI gives max_in_flight between 1 and the number of pages, a client never has more than that many requests written and not yet read; whatever the URI gives, never more than there are pages.", "quantifier": "all page counts, limits, schedules and failures", "why_tests_cant": "a limit on all schedules", "anchors": ["uhal/uhal/src/common/ProtocolPCIe.cpp:implementDispatch,connect", "uhal/uhal/src/common/ProtocolMmap.cpp:implementDispatch,connect"]}
{"id": "C69", "title": "PCIe and mmap: a flush can always finish", "statement": "Whenever a client with requests in flight calls Flush and the hardware answers, the client reads the replies to all of its requests and ends the session, whatever the other clients did before.", "quantifier": "all schedules of clients and hardware before the flush", "why_tests_cant": "liveness over unbounded histories", "anchors": ["uhal/uhal/src/common/ProtocolPCIe.cpp:Flush,read", "uhal/uhal/src/common/ProtocolMmap.cpp:Flush,read"]}
{"id": "C70", "title": "PCIe and mmap: packets stay within their page", "statement": "After a successful connect, a packet within getMaxSendSize with its page header lies inside the page of the hardware with the index it was written for, a reply within getMaxReplySize is read from inside the reply page of the same index, and different pages do not share addresses.", "quantifier": "all page counts, page sizes, user limits and indices", "why_tests_cant": "all device geometries", "anchors": ["uhal/uhal/src/common/ProtocolPCIe.cpp:connect,write,read", "uhal/uhal/src/common/ProtocolMmap.cpp:connect,write,read"]}
{"id": "C71", "title": "PCIe and mmap: the page header announces the packet", "statement": "The header word written before a request announces exactly the number of words of the request, for all packets from 1 to 65536 words.", "quantifier": "all packet lengths", "why_tests_cant": "65536 lengths, and bit-level encoding", "anchors": ["uhal/uhal/src/common/ProtocolPCIe.cpp:write", "uhal/uhal/src/common/ProtocolMmap.cpp:write"]}
{"id": "C72", "title": "mmap: accesses stay inside the mapping and the page", "statement": "An accepted write changes only words of its own page and inside the mapped region, and an accepted read of the reply page of a written request reads only inside the mapped region.", "quantifier": "all page sizes, indices and packets", "why_tests_cant": "out-of-bounds stores to a device mapping are silent", "anchors": ["uhal/uhal/src/common/ProtocolMmap.cpp:File::write,File::read"]}
{"id": "C73", "title": "An accepted device URI is used completely", "statement": "When a URI is accepted, every character of it other than white space is a separator or part of a field of the record, in order; nothing is left unread.", "quantifier": "all strings", "why_tests_cant": "all strings", "anchors": ["uhal/grammars/src/common/URIGrammar.cpp", "uhal/uhal/src/common/ClientFactory.cpp:getClient"]}
{"id": "C74", "title": "File lists split back into their parts", "statement": "A list of protocol://expression items joined by semicolons is split into exactly those protocols and expressions.", "quantifier": "all lists of protocols and expressions without reserved characters", "why_tests_cant": "all lists of strings", "anchors": ["uhal/uhal/src/common/utilities/files.cpp:ParseSemicolonDelimitedUriList", "uhal/grammars/src/common/SemicolonDelimitedUriListGrammar.cpp"]}
{"id": "C75", "title": "Node parameters are read completely", "statement": "Parameters written as name=value items joined by semicolons are all found with their values; a text that is not of that form is refused.", "quantifier": "all parameter lists and strings", "why_tests_cant": "all strings", "anchors": ["uhal/grammars/src/common/NodeTreeParametersGrammar.cpp", "uhal/uhal/src/common/NodeTreeBuilder.cpp:setPars"]}
{"id": "C76", "title": "The moment at which replies arrive changes nothing", "statement": "Take two executions of a client with the same sequence of user calls (reads, writes, dispatches) and the same sequence of replies from the target, in which the replies arrive at different moments relative to the calls, and suppose that nothing fails in the first. Then nothing fails in the second, the same packets are given to the transport in the same order, and all handles end with the same contents and the same validity. In particular a call does not depend on the contents or the validity of handles returned earlier, nor on which of the packets sent before are still unanswered.", "quantifier": "all configurations (protocol versions, limits, ControlHub or direct), all states reachable by a client, all sequences of calls and replies, all interleavings of the two", "why_tests_cant": "The arrival of replies is decided by the network and the thread scheduler; the interleavings grow exponentially with the number of packets and a test sees the few that happen on one machine.", "anchors": ["uhal/uhal/src/common/ClientInterface.cpp:143-202", "uhal/uhal/src/common/ClientInterface.cpp:280-335", "uhal/uhal/src/common/ProtocolIPbusCore.cpp:293-530"]}
{"id": "C77", "title": "After an exception the client behaves as a new one", "statement": "When a call or a dispatch has raised an exception of the transport (invalid reply, timeout, socket error, failed connection), everything that follows happens as on a client just constructed: the same calls send the same words, transaction IDs start again at 0, the same replies are accepted or refused, the same exceptions are raised and the handles returned since then get the same contents and validity. Handles returned before the exception keep their contents and validity for ever.", "quantifier": "all configurations, all executions before the exception, all kinds of transport failure, all executions after it", "why_tests_cant": "The state left behind by a failure depends on how many packets were queued, sent and answered at that moment; a test produces a few of these states.", "anchors": ["uhal/uhal/src/common/ClientInterface.cpp:143-180", "uhal/uhal/src/common/ClientInterface.cpp:363-383", "uhal/uhal/src/common/ProtocolIPbusCore.cpp:534-538", "uhal/uhal/src/common/ProtocolUDP.cpp:458-493"]}
{"id": "C78", "title": "A node accesses the device of its HwInterface", "statement": "Every read and write through a node obtained from an HwInterface (by getNode, at any time in the past) goes to the client that the HwInterface's getClient() returns, for as long as that HwInterface exists, whatever other HwInterface objects are constructed, copied, assigned or destroyed; different HwInterface objects never share a node.", "quantifier": "all sequences of constructions, copies, assignments and destructions of HwInterface objects, all address tables, all node paths", "why_tests_cant": "The owner pointer in each node is set by constructors only; which object it points to depends on the whole history of copies and assignments, including those made inside containers.", "anchors": ["uhal/uhal/src/common/HwInterface.cpp:46-81", "uhal/uhal/src/common/HwInterface.cpp:137-140", "uhal/uhal/src/common/Node.cpp:73-101", "uhal/uhal/src/common/Node.cpp:517-704", "uhal/uhal/include/uhal/HwInterface.hpp:55-163"]}
{"id": "C79", "title": "A client can name the nodes of its HwInterface", "statement": "While an HwInterface exists, the node tree that its client consults to describe an address in an error message exists and answers as the address table of that HwInterface.", "quantifier": "all sequences of constructions, copies, assignments and destructions of HwInterface objects", "why_tests_cant": "The client holds a weak pointer that each constructor overwrites; whether it is still good depends on the order in which all copies die.", "anchors": ["uhal/uhal/src/common/HwInterface.cpp:46-61", "uhal/uhal/include/uhal/ClientInterface.hpp:416", "uhal/uhal/src/common/detail/utilities.cpp:105-111"]}
{"id": "C80", "title": "Firmware information is read completely", "statement": "Firmware information written as a type followed by name=value items, each after a semicolon, is found completely, with or without a last semicolon and whatever white space stands between; nothing is found that is not written; a text that is not of that form is refused.", "quantifier": "all types, item lists and strings", "why_tests_cant": "all strings; what the grammar leaves unread is dropped without notice", "anchors": ["uhal/grammars/src/common/NodeTreeFirmwareInfoAttributeGrammar.cpp:43-53", "uhal/uhal/src/common/NodeTreeBuilder.cpp:508-529"]}
{"id": "C81", "title": "Exactly the legal address tables are accepted", "statement": "A tree is built from an address table exactly if its elements and the files they include obey the rules for attributes and numbers and every block ends inside the address space; the tree is then the described one. If no file includes itself, reading ends, with a tree or an exception.", "quantifier": "all sets of files and expressions", "why_tests_cant": "A test can show that one table is accepted or refused; that no legal table is refused and no illegal one accepted is a statement about all files.", "anchors": ["uhal/uhal/src/common/NodeTreeBuilder.cpp:151-175", "uhal/uhal/src/common/NodeTreeBuilder.cpp:180-372", "uhal/uhal/src/common/NodeTreeBuilder.cpp:564-640"]}
{"id": "C82", "title": "What a NodeTreeBuilder did before does not matter", "statement": "A call of getNodeTree gives the tree or exception that a new NodeTreeBuilder gives, after any sequence of successful and failed calls, if the files have not changed since the builder was made or its cache was cleared. If they have changed, a file already read is not read again until the cache is cleared.", "quantifier": "all sequences of calls, all sets of files and their changes", "why_tests_cant": "The builder keeps trees and a stack of files across calls, and an exception leaves both half way; each order of calls leaves another state.", "anchors": ["uhal/uhal/src/common/NodeTreeBuilder.cpp:151-248", "uhal/uhal/src/common/NodeTreeBuilder.cpp:278-283", "uhal/uhal/include/uhal/NodeTreeBuilder.hpp:173-180"]}
{"id": "C83", "title": "The transport does not matter to the client", "statement": "A client over UDP or TCP, whatever datagrams and stream pieces arrive, whenever timers expire and whatever fails, behaves as a client over a network that delivers the replies it checks in the order of sending: the calls, handles, replies and exceptions are the same and nothing is undefined. When dispatch() returns normally every handle obtained since the last exception is valid and keeps its value.", "quantifier": "all executions of client and transport threads, all network behaviours, all sequences of calls", "why_tests_cant": "The order in which the calling thread, the io thread, the timer and the network act is not controllable in a test, and the number of orders grows without bound.", "anchors": ["uhal/uhal/src/common/ClientInterface.cpp:143-202", "uhal/uhal/src/common/ClientInterface.cpp:280-335", "uhal/uhal/src/common/ClientInterface.cpp:363-383", "uhal/uhal/src/common/ProtocolUDP.cpp:121-146", "uhal/uhal/src/common/ProtocolUDP.cpp:320-371", "uhal/uhal/src/common/ProtocolUDP.cpp:444-493", "uhal/uhal/src/common/ProtocolTCP.cpp:121-143", "uhal/uhal/src/common/ProtocolTCP.cpp:487-509", "uhal/uhal/src/common/ProtocolTCP.cpp:569-629"]}
{"id": "C84", "title": "End to end through the transport", "statement": "From construction, or from an exception, up to a normal return of dispatch() over UDP or TCP: if each reply comes from a device that takes the packets in order of sending, the state of the device and the values in all new handles are those of the calls done one by one, and the packets checked are the packets sent, each once, in order.", "quantifier": "all devices, all sequences of calls, all executions of client and transport threads", "why_tests_cant": "A reply handed to the wrong packet shows only in particular interleavings and particular histories of exceptions.", "anchors": ["uhal/uhal/src/common/ClientInterface.cpp:143-202", "uhal/uhal/src/common/ClientInterface.cpp:280-335", "uhal/uhal/src/common/ClientInterface.cpp:363-383", "uhal/uhal/src/common/ProtocolUDP.cpp:121-146", "uhal/uhal/src/common/ProtocolUDP.cpp:320-371", "uhal/uhal/src/common/ProtocolUDP.cpp:444-493", "uhal/uhal/src/common/ProtocolTCP.cpp:121-143", "uhal/uhal/src/common/ProtocolTCP.cpp:487-509", "uhal/uhal/src/common/ProtocolTCP.cpp:569-629"]}
{"id": "C85", "title": "A request through the ControlHub is carried out at most once", "statement": "Between a ControlHub device client and an IPbus 2.0 target, whatever UDP datagrams are lost, duplicated or reordered (but not delayed by more than a given number of requests), the control packets the target carries out are the requests of the transaction managers in the order in which they were made, each at most once, and every reply handed back without an error is the reply of the target to that very request, under the header of the request.", "quantifier": "all targets, requests, losses, duplications, reorderings and timeouts; all executions of device client and network", "why_tests_cant": "The packets lost and the moments of the timeouts are not under the control of a test; a request carried out twice shows only for particular losses and identifiers.", "anchors": ["controlhub/src/ch_device_client.erl:212-236", "controlhub/src/ch_device_client.erl:247-488", "controlhub/src/ch_device_client.erl:549-681", "controlhub/src/ch_device_client.erl:694-770", "uhal/tests/src/common/DummyHardware.cpp:80-166", "uhal/tests/src/common/DummyHardware.cpp:377-476"]}
{"id": "C86", "title": "Every request to a device client is answered once", "statement": "Each request a transaction manager hands to a device client is answered by one response or error, in the order of the requests, or is still in the device client; when the device client stops, nobody is left without an answer.", "quantifier": "all sequences of requests of all managers, all network behaviours, all timeouts", "why_tests_cant": "A request forgotten at the end of a process appears only if it arrives at a particular moment.", "anchors": ["controlhub/src/ch_device_client.erl:212-236", "controlhub/src/ch_device_client.erl:247-488", "controlhub/src/ch_device_client.erl:549-681", "controlhub/src/ch_device_client.erl:694-770", "controlhub/src/ch_device_client_registry.erl:66-86", "controlhub/src/ch_device_client_registry.erl:166-176"]}
{"id": "C87", "title": "One round of packet-loss recovery without a loss succeeds", "statement": "Whenever a timeout starts or continues the recovery with packets in flight, whatever was lost before: if the status request, its reply, the repeated packet of the oldest request and its reply get through, the oldest request is answered with the reply of the only time its body was carried out (not a second time if that was before), and the device client goes on with the rest.", "quantifier": "all reachable states of device client, network and target", "why_tests_cant": "There are unboundedly many histories of losses before the recovery.", "anchors": ["controlhub/src/ch_device_client.erl:212-236", "controlhub/src/ch_device_client.erl:247-488", "controlhub/src/ch_device_client.erl:549-681", "controlhub/src/ch_device_client.erl:694-770", "uhal/tests/src/common/DummyHardware.cpp:80-166", "uhal/tests/src/common/DummyHardware.cpp:377-476"]}
{"id": "C88", "title": "Every TCP chunk of requests to the ControlHub gets one chunk with its replies", "statement": "The transaction manager of a client's connection hands the requests of each TCP chunk to the device client of the named target, unchanged and in order, and sends back for each chunk of requests one chunk with as many replies, in the order of the requests, each with the length, address, port and error code in front; how many chunks are under way and how the responses come in between makes no difference.", "quantifier": "all targets, chunks of well formed requests, numbers of chunks in flight and interleavings of chunks and responses", "why_tests_cant": "The interleavings of chunks and responses of different device clients are unboundedly many.", "anchors": ["controlhub/src/ch_transaction_manager.erl:160-268", "controlhub/src/ch_device_client_registry.erl:66-86"]}
{"id": "C89", "title": "Clients of one target behind a ControlHub do not see each other", "statement": "With any number of clients sending chunks of control packets for one IPbus 2.0 target through a ControlHub at the same time, whatever the network loses, duplicates or reorders within a bound: the target carries out the requests in one order that keeps the order of every client, each once, and each client gets, for each of its chunks in turn, one chunk with the replies to its own requests, or errors from the moment at which the device client gave up.", "quantifier": "all numbers of clients, chunks, targets, executions of managers, device client and network whose datagrams are not later than a bound", "why_tests_cant": "Neither the interleaving of the clients nor the losses can be chosen by a test.", "anchors": ["controlhub/src/ch_transaction_manager.erl:160-268", "controlhub/src/ch_device_client_registry.erl:66-86", "controlhub/src/ch_device_client.erl:212-236", "controlhub/src/ch_device_client.erl:247-488", "controlhub/src/ch_device_client.erl:549-681", "controlhub/src/ch_device_client.erl:694-770"]}
{"id": "C90", "title": "The allowlist of the ControlHub", "statement": "In enforcing mode the ControlHub passes requests on to exactly the targets that the allowlist file names, with that port or with any; a request for another target is not sent anywhere and is answered with error code 7. In permissive mode or without file all targets are reachable.", "quantifier": "all allowlists, targets and chunks", "why_tests_cant": "The file may hold any combination of lines.", "anchors": ["controlhub/src/ch_config.erl:103-119", "controlhub/src/ch_config.erl:140-190", "controlhub/src/ch_device_client_registry.erl:66-86", "controlhub/src/ch_transaction_manager.erl:238-268"]}
{"id": "C91", "title": "Several clients of one target: one history, atomic read-modify-writes, no lost update", "statement": "When several clients, of whatever protocol versions and packet limits, with or without ControlHub preamble, use one device at the same time, there is one order of all register accesses such that: each client's accesses are those of its own calls in the order of the calls; every read-modify-write (masked write, rmw_bits, rmw_sum) is one access that nothing comes between; what each client's handles hold after dispatch() is what these accesses read; accesses of a client that has not returned are an initial part of those of its calls. A waiting client returns when only its own packets are processed. Hence no addition by rmw_sum is lost: a register that is otherwise only read ends with its first value plus the sum of all that was added, modulo 2^32.", "quantifier": "all numbers of clients, calls, packet limits, interleavings and devices (the last claim: memories)", "why_tests_cant": "The interleavings of several clients with packets in flight are not under the control of a test; a lost update needs a packet boundary or another client exactly between a read and a write.", "anchors": ["uhal/uhal/src/common/ClientInterface.cpp:143-202", "uhal/uhal/src/common/ClientInterface.cpp:408-490", "uhal/uhal/src/common/ProtocolIPbusCore.cpp:150-420", "uhal/tests/src/common/DummyHardware.cpp:80-166", "uhal/tests/src/common/DummyHardware.cpp:302-361"]}
{"id": "C92", "title": "The library over the ControlHub over a lossy network: users see their calls carried out once, in order", "statement": "Several users call uHAL clients of IPbus 2.0 that send their packets in chunks over TCP to a ControlHub, which forwards them to one target over a network that may lose, repeat, delay and reorder datagrams. Whatever the order of events, and even if the hub's device client gives up: no client meets an error before it does; there is one history of register accesses that leads to the state of the target; the accesses of each client in it are an initial part of those its calls make one after the other (read-modify-writes not divided), each made once; and when dispatch() has returned without an exception, all of its accesses have been made and its handles hold the words these read. In particular, additions of several users to a register are neither lost nor made twice.", "quantifier": "all numbers of users, all sequences of calls with 32-bit arguments, all packet limits below 2^18 bytes, all divisions into chunks, all interleavings, losses, repetitions and delays (not more than a bound of requests late), all devices whose registers hold 32-bit words (the last claim: memories)", "why_tests_cant": "The combination of packet limits, chunk boundaries, several users, and losses at each point of an execution is far too large to enumerate; a test cannot place a loss in a particular packet of a particular user's read-modify-write.", "anchors": ["uhal/uhal/src/common/ClientInterface.cpp:143-202", "uhal/uhal/src/common/ProtocolTCP.cpp:205-243", "uhal/uhal/src/common/ProtocolTCP.cpp:437-509", "uhal/uhal/src/common/ProtocolControlHub.cpp:92-153", "controlhub/src/ch_transaction_manager.erl:108-275", "controlhub/src/ch_device_client.erl:150-760", "uhal/tests/src/common/DummyHardware.cpp:80-166"]}
{"id": "C93", "title": "IPbus 1.3 targets behind the ControlHub: every request at most once, in order, and answered with its own reply", "statement": "The ControlHub's device client of an IPbus 1.3 target, which has no packet identifiers, sends one request at a time. Whatever datagrams the network loses, repeats, delays or reorders: requests are carried out by the target in the order in which they were made, each at most once; every reply given to a client is the reply of the target to that client's request; a request that is not answered in time fails with an error code, and so do all after it that are in the process; nobody who made a request of a living process is left without an answer.", "quantifier": "all sequences of requests beginning with a byte-order transaction, all targets (any state, any replies), all interleavings of requests, timeouts and datagrams", "why_tests_cant": "The wrong cases need a repeated or very late datagram at a particular point of a particular execution; a test on one machine never sees one.", "anchors": ["controlhub/src/ch_device_client.erl:212-242", "controlhub/src/ch_device_client.erl:247-333", "controlhub/src/ch_device_client.erl:350-414", "controlhub/src/ch_device_client.erl:694-770"]}
{"id": "C94", "title": "Clients sharing a board through PCIe or mmap: one history, no lost update", "statement": "Several clients (in one process or several) talk to one board through its ring of pages. There is one history of accesses to the registers; no client meets an error; what each client's calls do and give is what they do and give when carried out one after the other in that history; when dispatch() has returned everything it had queued has been carried out and the memory given to the user holds the results. Additions by read-modify-write to one register are not lost.", "quantifier": "all numbers of clients, all calls, all devices, all numbers of pages below 2^32, all interleavings of the clients' steps and of the hardware", "why_tests_cant": "The harmful interleaving is a few instructions wide, between the release of the lock and the end of the session, and needs two processes and a particular moment of the hardware.", "anchors": ["uhal/uhal/src/common/ProtocolPCIe.cpp:385-407", "uhal/uhal/src/common/ProtocolPCIe.cpp:510-658", "uhal/uhal/src/common/ProtocolMmap.cpp:330-352", "uhal/uhal/src/common/ProtocolMmap.cpp:433-559", "uhal/uhal/src/common/ClientInterface.cpp:143-180"]}
{"id": "C95", "title": "Clients sharing a board through PCIe or mmap: dispatch() returns", "statement": "Clients that share a board wait for one another's lock and for the hardware, but not for ever. From any state reached, for any set of clients that are inside dispatch() (the one holding the lock among them): the number of steps they and the hardware can make is bounded, and as long as one of them has not returned a step can be made; so dispatch() of each of them returns.", "quantifier": "all reachable states, all sets of waiting clients, all schedules of their steps and the hardware's", "why_tests_cant": "A deadlock or a livelock needs a particular interleaving of several processes; a test that ends says nothing about those that do not.", "anchors": ["uhal/uhal/src/common/ProtocolPCIe.cpp:385-407", "uhal/uhal/src/common/ProtocolPCIe.cpp:510-658", "uhal/uhal/src/common/ClientInterface.cpp:143-180"]}
{"id": "C96", "title": "Bus errors in mmap accesses become exceptions; handler and signal masks are given back", "statement": "Threads of one process that use SigBusGuard, in any interleaving: a SIGBUS raised by an access run by protect() makes that call of protect(), in that thread, throw SigBusError, and nothing else changes; guards of different threads never overlap; when no guard exists, the program's own action for SIGBUS is in place again, and every thread without a guard has the signal mask it set up itself; the process dies only of a SIGBUS outside protect(), which under a guard is announced by the warning.", "quantifier": "all numbers of threads, interleavings, original actions and signal masks", "why_tests_cant": "Signal handlers, masks and jump buffers are shared by all threads; the damage of a wrong order shows only for a bus error at one particular moment.", "anchors": ["uhal/uhal/src/common/SigBusGuard.cpp:43-149", "uhal/uhal/include/uhal/SigBusGuard.hpp:58-84", "uhal/uhal/src/common/ProtocolMmap.cpp:178-188", "uhal/uhal/src/common/ProtocolMmap.cpp:216-243"]}
{"id": "C97", "title": "ControlHub: at most one device client per target, and requests go to the right one", "statement": "With any number of client connections and targets: there are never two running device clients for one target; one is started only for a target of the allowlist (or in permissive mode) and after every earlier one of that target has stopped; a request goes only to a device client started for the target it is for; a target is refused only if it is not in the allowlist; a connection that waits for a device client to be started is answered; no request is handed to a device client that has stopped.", "quantifier": "all interleavings of any number of connections, targets, starts and ends of device clients", "why_tests_cant": "The races are between table lookups of the connections, messages in the registry's mailbox and the end of a device client after 15 s without traffic.", "anchors": ["controlhub/src/ch_device_client_registry.erl:66-86", "controlhub/src/ch_device_client_registry.erl:137-183", "controlhub/src/ch_device_client_registry.erl:212-224", "controlhub/src/ch_transaction_manager.erl:255-268"]}
{"id": "C98", "title": "The text of the allowlist file is read as written", "statement": "A line of the allowlist file that gives an address, or an address and a port, allows exactly that (the last such line of an address counts); blank lines and comments allow nothing; nothing is allowed that no line says; with any other line in the file the ControlHub does not start.", "quantifier": "all texts of the file, all targets and ports, both modes", "why_tests_cant": "The regular expression is not anchored, its full stops match any character, and string:to_integer drops what follows a number: what an odd line means can only be found out for all texts at once.", "anchors": ["controlhub/src/ch_config.erl:55-67", "controlhub/src/ch_config.erl:103-118", "controlhub/src/ch_config.erl:143-188", "controlhub/src/controlhub_app.erl:30-45"]}
{"id": "C99", "title": "Nobody waits for ever at the ControlHub", "statement": "Whatever the network loses, repeats or delivers out of order: for every chunk of requests a client has sent, the ControlHub sends it an answer after a bounded number of its own steps (messages handed over, timeouts), even if nothing more comes from the target; no execution makes it work without end.", "quantifier": "all numbers of clients and chunks, all interleavings, all behaviours of the network and the target", "why_tests_cant": "The timeouts are seconds long and nested (five status attempts inside five recovery attempts, for each packet in flight); that no sequence of losses and late datagrams makes the recovery start again for ever is a statement about all infinite behaviours.", "anchors": ["controlhub/src/ch_device_client.erl:247-333", "controlhub/src/ch_device_client.erl:416-488", "controlhub/src/ch_device_client.erl:694-770", "controlhub/src/ch_transaction_manager.erl:173-262"]}
{"id": "C100", "title": "dispatch() through the ControlHub ends", "statement": "Whatever has happened before, a call of dispatch() of a client that talks through a ControlHub comes to its end, with the results or with an exception, although nothing more may come from the network: the client and the ControlHub alone need a bounded number of further steps, and no execution makes the ControlHub work without end.", "quantifier": "all numbers of users, all sequences of calls with 32-bit arguments, all divisions into chunks, all interleavings, losses, repetitions and delays (not more than a bound of requests late), all states of the whole system, also after the device client has given up", "why_tests_cant": "A hanging dispatch() shows itself only as a test that does not finish; which of the chunks, replies and timeouts have to come in which order to make one hang cannot be enumerated, and the bound is a statement about all executions.", "anchors": ["uhal/uhal/src/common/ClientInterface.cpp:143-180", "uhal/uhal/src/common/ProtocolTCP.cpp:205-243", "uhal/uhal/src/common/ProtocolTCP.cpp:437-509", "controlhub/src/ch_device_client.erl:247-488", "controlhub/src/ch_transaction_manager.erl:173-262"]}
{"id": "C101", "title": "The packet inspectors report exactly what a packet contains", "statement": "HostToTargetInspector and TargetToHostInspector call one callback for each transaction of a packet, in order, with the fields of its header and the words of its body, and for its packet header; nothing is invented, skipped or reported twice, and the iterator ends at the end of the packet; no word outside the packet is looked at.", "quantifier": "both directions, both protocol versions, all packets of any number of whole transactions of all types, all surroundings of the packet in its vector; all word sequences for exactness", "why_tests_cant": "Packets and buffers are unbounded lists of 32-bit words; what happens at a packet that ends too early depends on what was in the buffer before, which tests with fresh buffers do not show.", "anchors": ["uhal/uhal/src/common/IPbusInspector.cpp:61-194", "uhal/uhal/src/common/IPbusInspector.cpp:329-435", "uhal/tests/src/common/DummyHardware.cpp:80-166"]}
{"id": "C102", "title": "After a bus error, the exception names exactly the nodes at the failed address", "statement": "When a target reports a bus error, dispatch() raises IPbusCoreResponseCodeSet, and the nodes its message names are exactly the nodes of the device's address table that have the address of the failed word, in depth-first order, by their paths below the closest ancestor they have in common; with more than five of them, their number and that ancestor. A node through which the access was made is among them.", "quantifier": "all node trees (all trees made from address tables), all addresses, all list sizes, all transaction types and word counts; all words of all accesses a node allows", "why_tests_cant": "The text depends on the whole tree and on a 32-bit address; tests look at one or two small tables, none of whose roots is a register and none of whose blocks ends with the address space.", "anchors": ["uhal/uhal/src/common/detail/utilities.cpp:46-111", "uhal/uhal/src/common/Node.cpp:707-722", "uhal/uhal/src/common/ProtocolIPbusCore.cpp:94-110", "uhal/uhal/src/common/ProtocolUDP.cpp:357-371"]}
{"id": "C103", "title": "With a network and a device that do nothing wrong, dispatch() raises nothing and returns", "statement": "If connecting succeeds, every send succeeds, every packet is answered, in order and with a reply that passes the checks (over TCP: announcing no more bytes than there is room for), and no deadline passes, then under every schedule of the user's thread and the transport's threads no failure is stored, no exception is raised and the exception handler is not entered; and while dispatch() is waiting it can only make finitely many more steps, some step is always possible, and it ends by returning normally with every packet handled.", "quantifier": "both transports, all timeouts other than zero, all numbers of packets per chunk, all packet lengths, all schedules, all histories before (new client or after an exception)", "why_tests_cant": "Whether an exception is raised without cause depends on the interleaving of the user's thread with the io thread; tests see the few interleavings that happen.", "anchors": ["uhal/uhal/src/common/ProtocolUDP.cpp:121-493", "uhal/uhal/src/common/ProtocolTCP.cpp:121-629"]}
{"id": "C104", "title": "To a working device over a working network, every dispatch() returns with the right results", "statement": "If the network loses nothing and no deadline passes, and the replies are those of a device that executes the packets in the order they were sent, then every reply passes the checks of validate(), no failure is stored, no exception is raised, and a dispatch() that waits returns after finitely many steps whatever the schedule of the threads; the device is then in the state, and the handles hold the values, that the calls would give one by one.", "quantifier": "UDP and TCP, all protocol versions and buffer sizes, all devices, all sequences of calls, all schedules, all timeouts other than zero, new client or after an exception", "why_tests_cant": "Combines unbounded sequences of calls with all interleavings of the user's thread and the transport's thread and all devices.", "anchors": ["uhal/uhal/src/common/ClientInterface.cpp:143-202", "uhal/uhal/src/common/ClientInterface.cpp:280-335", "uhal/uhal/src/common/ProtocolUDP.cpp:121-493", "uhal/uhal/src/common/ProtocolTCP.cpp:121-629", "uhal/uhal/src/common/ProtocolIPbusCore.cpp:62-176"]}
{"id": "C105", "title": "The ControlHub always accepts the next client", "statement": "At any time at most one process of the ControlHub waits for a client to connect, and whatever clients, sockets and other processes have done, the ControlHub by itself comes, in at most two steps, to the point where one does, and the client that then connects is served; what happens to one client, also the failure of its processes, does nothing to the processes of another; and no processes are left of clients that have gone.", "quantifier": "all numbers of clients, all interleavings of the listener, the managers, the socket processes and the statistics, all failures of accept, of peername, of sending and of the managers", "why_tests_cant": "The property is about unbounded executions of many concurrent processes with failures that the operating system produces.", "anchors": ["controlhub/src/ch_tcp_listener.erl:85-184", "controlhub/src/ch_transaction_manager.erl:59-229"]}
{"id": "C106", "title": "The statistics that the ControlHub reports about its clients are right", "statement": "Once all messages have been handled: the number of connections of all time is the number of clients accepted, the number of active connections that of the clients connected; the peak is never below any number of active connections reported before and never above the number of clients that were there at once; there is a row for exactly the clients with a connection, which gives the numbers of requests received, malformed chunks and responses sent of that client, and with the row of old clients they add up to those of all clients; and the statistics process never fails.", "quantifier": "all numbers of clients, all chunks and replies, all interleavings, all failures", "why_tests_cant": "Counters are right only if no interleaving of the messages of many processes loses or doubles one.", "anchors": ["controlhub/src/ch_stats.erl:338-412", "controlhub/src/ch_stats.erl:440-520", "controlhub/src/ch_transaction_manager.erl:68-266"]}
{"id": "C107", "title": "Numbers in messages are printed as they are", "statement": "What operator<< writes for Integer(v, IntFmt<base, format, width>) is: the prefix 0b or 0x or a minus sign exactly for negative decimal numbers, then digits that denote the value (in binary and hexadecimal its two's complement); in variable format the fewest digits, in fixed format as many as the width says and at least all bits of the type (binary, hexadecimal) or all digits needed (decimal). No character outside the tables or the buffer is accessed. Different values have different texts, and an address printed in decimal or hexadecimal is read by an address table as the same number.", "quantifier": "all eight integer types, all values, all bases and formats, all widths below 2^31", "why_tests_cant": "2^64 values, among them the extremes of signed types where negating overflows.", "anchors": ["uhal/log/include/uhal/log/log_inserters.integer.hxx:54-252", "uhal/log/src/common/log_inserters.integer.cpp:38-72"]}
{"id": "C108", "title": "Every node object has one owner, copies are independent, nothing is used after it was deleted", "statement": "Whatever sequence of creating, filling, sorting, cloning, converting to another class, assigning and deleting nodes a program performs: no deleted node is used and none deleted twice; every node belongs to exactly one owner, as itself or as a descendant; it is the child of at most one node; parent pointers and the tables of ids refer to existing nodes, and to the right ones. clone() and convertToClassType give a tree of new nodes with the same contents, linked to each other, and leave all other nodes as they were. Deleting a node deletes exactly it and its descendants; when all owned nodes have been deleted none is left. Assignment gives the target the contents of the source.", "quantifier": "all sequences of operations, all trees, all attribute values, all classes", "why_tests_cant": "Use after free and leaks depend on the order of operations and on the shape of the trees, which are unbounded; and they need not be visible in a test.", "anchors": ["uhal/uhal/src/common/Node.cpp:50-167", "uhal/uhal/src/common/DerivedNodeFactory.cpp:73-103", "uhal/uhal/src/common/NodeTreeBuilder.cpp:173-331", "uhal/uhal/src/common/NodeTreeBuilder.cpp:531-631", "uhal/uhal/include/uhal/Node.hpp:123-144"]}
{"id": "C109", "title": "TCP: what is written is written to an open connection", "statement": "Whenever the TCP transport writes a chunk of packets and no exception is stored, its socket is open: implementDispatch makes the connection if there is none, and a connection closed because nothing was said for the timeout period is made again. A user may wait any time between queueing operations and dispatch().", "quantifier": "all runs of the TCP transport, all numbers of packets per chunk and in flight, all sizes", "why_tests_cant": "It depends on when the deadline of an idle connection passes relative to the user's calls.", "anchors": ["uhal/uhal/src/common/ProtocolTCP.cpp:120-143", "uhal/uhal/src/common/ProtocolTCP.cpp:160-200", "uhal/uhal/src/common/ProtocolTCP.cpp:540-629"]}
{"id": "C110", "title": "what() of an exception gives its text", "statement": "what() of a uHAL exception gives the description of its class when nothing was appended to it, and otherwise what was appended, in order; copies give the text of the original when copied. No call writes outside the exception's buffer.", "quantifier": "all sequences of construction, copy, assignment, append, what() and destruction, all texts", "why_tests_cant": "Tests throw a few short texts; the end of the buffer is reached only with very long ones.", "anchors": ["uhal/log/src/common/exception.cpp:53-107", "uhal/log/include/uhal/log/exception.hpp:49-57"]}
{"id": "C111", "title": "The log has the messages that are severe enough, each as one line", "statement": "log() writes a message to std::cout exactly when its level is at least as severe as the one set last by setLogLevelTo or setLogLevelFromEnvironment (none after disableLogging) and is not excluded at compile time. Each message is one line, with the colour and name of its level, the right date and time to the microsecond, the thread and the arguments; lines of different threads are never mixed, each thread's lines are in its order, and no thread waits for ever. After overlapping calls of setLogLevelTo the level is one of those set, and logging does not change how std::cout formats other output.", "quantifier": "all sequences of calls in any number of threads, all interleavings, all times from 1900 to 9999, all texts, all sets of excluded levels", "why_tests_cant": "Mixed lines and half-set levels depend on the interleaving of threads; tests see few times of day.", "anchors": ["uhal/log/src/common/log.cpp:16-272", "uhal/log/include/uhal/log/log.hxx:17-29", "uhal/log/src/common/log_inserters.time.cpp:46-145", "uhal/log/include/uhal/log/log_inserters.time.hxx:117-235", "uhal/log/src/common/LogLevels.cpp:30-136"]}
{"id": "C112", "title": "The ControlHub's statistics of targets are those of what was sent and received", "statement": "Whenever device clients start, work, end by themselves or are killed: the statistics process never fails on their tables, its report can always be made, has at most one row for each device client, and once it has no message left exactly one for each running device client; the datagrams sent in the rows and in the row of ended device clients are together exactly those ever sent. The counters of a device client are the number of datagrams it has sent, of replies used, of timeouts, losses and recoveries; \"Packets In\" is the number of datagrams received, and timeouts of targets of both IPbus versions are counted.", "quantifier": "all numbers of device clients of both IPbus versions, all requests, datagrams, timeouts, kills at any point, all orders of the statistics process's messages", "why_tests_cant": "Kills at each point of a device client's start and orders of messages between processes are not reached by tests; wrong counts go unnoticed.", "anchors": ["controlhub/src/ch_stats.erl:146-207", "controlhub/src/ch_stats.erl:378-412", "controlhub/src/ch_stats.erl:438-541", "controlhub/src/ch_device_client.erl:146-170", "controlhub/src/ch_device_client.erl:335-459", "controlhub/src/ch_device_client.erl:694-770"]}
{"id": "C113", "title": "Address files are opened with their content, or an exception is thrown", "statement": "OpenFile calls its callback for each regular file that a file:// expression stands for, in order, with the content of the file, and throws FileNotFound if there is none and CannotOpenFile if one cannot be opened. For an http:// URL it sends the right request and calls the callback once with the body of the reply if the status is 200, however the reply is cut into pieces; in all other cases (other status, connection lost, reply not complete, unknown host) it throws CannotOpenFile and does not call it. Nothing is read that was not set, and nothing is written outside the receive buffer.", "quantifier": "all expressions, file systems, URLs, replies of any length and content, cuttings into pieces, ends of the connection", "why_tests_cant": "Tests use local files only and no web server; replies without headers or reason, or cut short, are not tried.", "anchors": ["uhal/uhal/src/common/utilities/files.cpp:87-134", "uhal/uhal/src/common/utilities/files.cpp:137-272", "uhal/uhal/src/common/utilities/files.cpp:279-341", "uhal/grammars/src/common/HttpResponseGrammar.cpp:67-75", "uhal/grammars/include/uhal/grammars/HttpResponseGrammar.hpp:51-81"]}
{"id": "C114", "title": "XML files are read as the documents they stand for, and errors are reported where they are", "statement": "Every well-formed XML file (UTF-8) given as a connection file or an address table is read as exactly the elements, attributes and texts it stands for, with comments, processing instructions and the document type left out, references replaced and line ends and white space in attributes normalised. No file of any content makes the parser use memory outside the file or run forever. A file that is not well-formed is not accepted; its report gives line and character of the error and the text of the line, and using memory outside the file or an exception of another kind never happens.", "quantifier": "all files of any length and content; all documents", "why_tests_cant": "The tests read a few dozen well-formed tables; the grammar has infinitely many documents, and broken files are hardly tried.", "anchors": ["uhal/uhal/src/common/pugixml.cpp:1934-2009", "uhal/uhal/src/common/pugixml.cpp:2446-2594", "uhal/uhal/src/common/pugixml.cpp:2599-2910", "uhal/uhal/src/common/pugixml.cpp:2912-3560", "uhal/uhal/src/common/utilities/xml.cpp:57-112", "uhal/uhal/src/common/NodeTreeBuilder.cpp:215-222", "uhal/uhal/src/common/ConnectionManager.cpp:239-247"]}
{"id": "C115", "title": "A device is what the bytes of its connection file and address tables say", "statement": "For connection files and address tables that are well-formed XML: getDevice(id) gives a device with exactly the URI and the tree of the address table listed for that id in the connection files, looked for relative to the first file that lists the id; an id that no complete entry lists does not exist, and entries of one id that differ prevent the manager from being made. An address table gives a tree just when its elements describe one, and the tree is the one described. How a table is written (order and quoting of attributes, white space, comments, references, texts) makes no difference anywhere. Exactly one file of an expression must be an address table. Every element of an address table counts, and nothing but XML files with the extension .xml is taken for one.", "quantifier": "all connection files and address tables, all contents of the file system, all modules including each other", "why_tests_cant": "The tests use a handful of files; two files that say the same in different words, or misspelt elements, are never compared.", "anchors": ["uhal/uhal/src/common/NodeTreeBuilder.cpp:151-248", "uhal/uhal/src/common/NodeTreeBuilder.cpp:531-554", "uhal/uhal/src/common/ConnectionManager.cpp:59-80", "uhal/uhal/src/common/ConnectionManager.cpp:106-162", "uhal/uhal/src/common/ConnectionManager.cpp:229-284", "uhal/uhal/src/common/pugixml.cpp:5497-5526"]}
{"id": "C116", "title": "A ControlHub client and the ControlHub agree on the target named in the URI", "statement": "The constructor of a ControlHub client takes the first argument called target of its URI, splits it at the first colon and resolves host and port, or throws one of three exceptions, according to whether there is no such argument, no colon in it, or no answer of the resolver. With the address a.b.c.d and the port found, the first six bytes of every packet the client ever sends are a, b, c, d and the port, most significant byte first; the ControlHub gives every packet to the device client of this target (or to none, if the target is blocked), whose datagrams go to a.b.c.d and this port, and calls it a.b.c.d:port in its log. Every target named in the URI is honoured or refused.", "quantifier": "all URIs, all resolvers, all addresses and ports, all sequences of operations, both protocol versions, all ways to put packets into chunks", "why_tests_cant": "Tests use 127.0.0.1 and localhost, which cannot show bytes in the wrong order or shifts that lose bits.", "anchors": ["uhal/uhal/src/common/ProtocolControlHub.cpp:51-190", "controlhub/src/ch_transaction_manager.erl:232-266", "controlhub/src/ch_utils.erl:93-96", "controlhub/src/ch_utils.erl:162-166", "controlhub/src/ch_device_client.erl:146-151"]}
{"id": "C117", "title": "Nodes are objects of the class their address table asks for, and getNode<T> finds it", "statement": "Each element of an address table has, in the tree of nodes, an object of the registered class its class attribute names; a plain Node, as the warning says, if it names an unknown class; if it names none, an object of the class of the top element of the module it includes, or a plain Node if it includes none. The class name of an object is that of its class. The first registration of a name is the one that counts; copies of the tree, as often as they are copied, have objects of the same classes in the same places. getNode<T>(id) returns the node getNode(id) finds if that class is a T, throws BadNodeCast if it is not, and the exception of getNode if there is no such node; it never has undefined behaviour. The classes change nothing else of the tree.", "quantifier": "all address tables with all nestings of modules, all registries and class hierarchies, all ids, all numbers of copies", "why_tests_cant": "Tests use one fixed set of tables with a few combinations of classes and modules; a class lost in a copy, in the sort of the children or in a module shows only for some shapes of tables, and no test table has an unknown class at an element that includes a module.", "anchors": ["uhal/uhal/src/common/NodeTreeBuilder.cpp:151-305", "uhal/uhal/src/common/NodeTreeBuilder.cpp:531-632", "uhal/uhal/src/common/DerivedNodeFactory.cpp:73-103", "uhal/uhal/include/uhal/TemplateDefinitions/DerivedNodeFactory.hxx:43-63", "uhal/uhal/include/uhal/TemplateDefinitions/Node.hxx:45-58", "uhal/uhal/include/uhal/DerivedNode.hpp:53-65"]}
{"id": "C118", "title": "The report on overlapping nodes", "statement": "The report on the overlapping nodes of an address table has exactly one line for each pair of nodes that overlap, with the full ids of both and, in eight hexadecimal digits each, the addresses and masks that overlap; no line depends on the ones before it. A table without overlapping nodes gives no report and no message. For one with such nodes the report is written to a file of its own in the directory of the user, with the path of the table, and there is one message, which says truly whether and where it was written; no failure to write it keeps the table from being read.", "quantifier": "all trees of nodes whose blocks fit the address space, all ids without an end of line, all paths, all behaviours of the file system", "why_tests_cant": "The tests look at the pairs found and not at the text or at the file; a fill character or base left in the stream shows only in later lines, and a file system that refuses a name, is full or has a file in the way is in no test.", "anchors": ["uhal/uhal/src/common/detail/utilities.cpp:169-230", "uhal/uhal/src/common/NodeTreeBuilder.cpp:634-687"]}
{"id": "C119", "title": "In Python a vector of words is like the list of its values and a word like its value", "statement": "For a valid ValVector v with the values l: v[i] is l[i] for all i, with IndexError where l has no item, v[a:b:c] is l[a:b:c] for all starts, stops and steps, given or not, positive or negative, str(v) is str(l), and every iterator of v gives the items of l in order and then stops, whatever else is done with v and with other iterators, even after v is gone. A ValWord compares and computes with any number as its value does, and str() gives its value in decimal. What is not valid raises NonValidatedMemory.", "quantifier": "all vectors, all indices and slices with integers of any size, all interleavings of copies, deletions and iterators, all words and operands", "why_tests_cant": "Tests take a few slices of a few vectors and whole numbers as operands; steps below zero run through size_t arithmetic that wraps, numbers beyond 64 bits are clipped, and an iterator that outlives its vector mostly reads memory that still has the old contents.", "anchors": ["uhal/python/src/common/cactus_pycohal.cpp:141-209", "uhal/python/src/common/cactus_pycohal.cpp:264-303", "uhal/python/pkg/uhal/__init__.py:27-75", "uhal/uhal/src/common/ValMem.cpp:263-387"]}
{"id": "C120", "title": "An address decoder generated from an address table sends every address of an endpoint to that endpoint", "statement": "If gen_ipbus_addr_decode writes a file for a tree of nodes, then the endpoints (the flagged nodes with no flagged node above them) have widths of at most 32, as given where given, are aligned to them and do not overlap; each has a constant with its own name and number; and every address in the 2^width words of an endpoint selects that endpoint's number and no other, which fits the selector. Every register is in an endpoint if there is one at all, and the addresses of the registers and blocks in an endpoint select it. Endpoints that fit, are aligned and do not overlap are accepted.", "quantifier": "all trees of nodes of any depth with any addresses, sizes and widths, all 32-bit addresses", "why_tests_cant": "Whether two endpoints are told apart depends on all endpoints together, through the bits that are the same in all of them; tests look at the decoders of a few tables at a few addresses, and the tables that go wrong have endpoints in groups or spans of 2^29 words.", "anchors": ["uhal/tools/scripts/gen_ipbus_addr_decode:28-72", "uhal/tools/scripts/gen_ipbus_addr_decode:101-118", "uhal/tools/scripts/gen_ipbus_addr_decode:134-202", "uhal/tools/scripts/gen_ipbus_addr_decode:271-380"]}
{"id": "C121", "title": "Reading all registers of a device shows each readable node once with its value, or nothing", "statement": "For any address tree, any expression and any device, uhal_inspect_registers shows exactly the nodes below the one given whose relative path matches and that are not write-only, each once, in the order of their paths, with the field of the word at the node's address; if one of these accesses fails it shows nothing. One round of the GUI's polling thread shows exactly the readable nodes with no nodes below them, each once, with the field of the word at its address; if one of these accesses fails the device is left out.", "quantifier": "all well-formed node trees, all nodes of them to start from, all expressions (as functions of the path), all devices (as functions of the address, each access may fail)", "why_tests_cant": "The set of nodes shown is determined by the whole tree, the expression, permissions and masks together; tests run the script on one table with a device that answers at every address, where reading nodes that only group others goes unnoticed.", "anchors": ["uhal/tools/scripts/uhal_inspect_registers.py:14-25", "uhal/gui/pkg/uhal/gui/utilities/hardware_monitoring.py:49-97", "uhal/uhal/src/common/Node.cpp:492-513"]}
{"id": "C122", "title": "The GUI's tree of a device has every node of it, under its path", "statement": "For any device the GUI builds a tree of the same shape as the device's: each of its nodes shows address, mask, permission, mode, size and tags of one node, has that node's path from the top as its id and the parent's path as its parent, and children in the order of their ids. The ids in the tree are exactly the paths of the nodes of the device, and getNode of an id finds the node shown. If every device of the connection file can be had, each has its entry, in their order.", "quantifier": "all well-formed node trees of any depth", "why_tests_cant": "There are no tests of the GUI; the paths are put together from those of the parents at every level, so that an error at one level shows only in trees deep enough.", "anchors": ["uhal/gui/pkg/uhal/gui/utilities/hardware.py:8-44", "uhal/gui/pkg/uhal/gui/utilities/hardware.py:193-223", "uhal/uhal/src/common/Node.cpp:492-513"]}
{"id": "C123", "title": "A table in the GUI shows the registers of its own end point", "statement": "After any series of messages from the polling thread, every row of a table shows the last value that the table's end point sent for the register with the row's id, or nothing if there was none, and the table is red exactly if the last message has no values of its end point. A table made for an end point or a node has one row for each node there, and the ids of the rows are the nodes' paths from the end point.", "quantifier": "all end point names, numbers of tables, rows and series of messages; all paths of nodes", "why_tests_cant": "There are no tests of the GUI; whether a table takes the values of another end point depends on the names of all end points and on the order of the keys in a dictionary.", "anchors": ["uhal/gui/pkg/uhal/gui/guis/hardware_table_panel.py:73-79", "uhal/gui/pkg/uhal/gui/guis/hardware_table_panel.py:205-219", "uhal/gui/pkg/uhal/gui/guis/hardware_table_panel.py:267-297", "uhal/gui/pkg/uhal/gui/guis/hardware_table_panel.py:310-378", "uhal/gui/pkg/uhal/gui/utilities/hardware_monitoring.py:115-164"]}
