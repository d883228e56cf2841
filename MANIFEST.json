{
 "claims": [
  {
   "property": "C01",
   "status": "proved",
   "theorems": [
    "C01_mask_shift"
   ],
   "note": "All non-zero 32-bit masks."
  },
  {
   "property": "C02",
   "status": "proved",
   "theorems": [
    "C02_masked_read"
   ],
   "note": "All words and non-zero masks."
  },
  {
   "property": "C03",
   "status": "proved",
   "theorems": [
    "C03_masked_write_check"
   ],
   "note": "All addresses, values, masks and client states; refusal leaves the client state unchanged."
  },
  {
   "property": "C04",
   "status": "proved",
   "theorems": [
    "C04_masked_write_effect"
   ],
   "note": "On a memory device, through the whole system run."
  },
  {
   "property": "C05",
   "status": "proved",
   "theorems": [
    "C05_header_roundtrip_v2",
    "C05_C06_header_layout"
   ],
   "note": "Also the exact bit layout."
  },
  {
   "property": "C06",
   "status": "proved",
   "theorems": [
    "C06_header_roundtrip_v1",
    "C05_C06_header_layout"
   ],
   "note": "Also the exact bit layout."
  },
  {
   "property": "C07",
   "status": "proved",
   "theorems": [
    "C07_decode"
   ],
   "note": "Acceptance and decoded fields, both versions."
  },
  {
   "property": "C08",
   "status": "proved",
   "theorems": [
    "C08_block_write"
   ],
   "note": "All lengths below 2^29, both modes, any queue contents and packet limits; stated on the device accesses of a system run."
  },
  {
   "property": "C09",
   "status": "proved",
   "theorems": [
    "C09_block_read"
   ],
   "note": "As C08."
  },
  {
   "property": "C10",
   "status": "proved",
   "theorems": [
    "C10_word_counts"
   ],
   "note": "All packets of all call sequences."
  },
  {
   "property": "C11",
   "status": "partial",
   "theorems": [
    "C11_packet_sizes_v2",
    "C11_packet_sizes_v1_partial",
    "C11_reply_limit_v1_refuted"
   ],
   "note": "Complete for IPbus 2.0. IPbus 1.3: send limit proved, reply limit can be exceeded by up to 28 bytes (refuted by a concrete case)."
  },
  {
   "property": "C12",
   "status": "partial",
   "theorems": [
    "C12_ids",
    "C12_v1_config_read_refuted"
   ],
   "note": "Proved unless an IPbus 1.3 client is asked for a configuration-space read, which raises but uses up an ID (refuted)."
  },
  {
   "property": "C13",
   "status": "proved",
   "theorems": [
    "C13_reply_size"
   ],
   "note": "Against the wire format and against the modelled target on any device."
  },
  {
   "property": "C14",
   "status": "proved",
   "theorems": [
    "C14_end_to_end",
    "C14_handles",
    "C14_progress"
   ],
   "note": "Any device, any interleaving; limits at least the minimum of cfg_ok, blocks below 2^29 words."
  },
  {
   "property": "C15",
   "status": "proved",
   "theorems": [
    "C15_schedule_independent"
   ],
   "note": ""
  },
  {
   "property": "C16",
   "status": "proved",
   "theorems": [
    "C16_limits_invisible"
   ],
   "note": ""
  },
  {
   "property": "C17",
   "status": "proved",
   "theorems": [
    "C17_empty_dispatch",
    "C17_nothing_queued",
    "C17_sends_nothing"
   ],
   "note": ""
  },
  {
   "property": "C55",
   "status": "proved",
   "theorems": [
    "C55_hub_preamble"
   ],
   "note": ""
  },
  {
   "property": "C20",
   "status": "proved",
   "theorems": [
    "C20_unreadable_until_checked"
   ],
   "note": "Over an arbitrary network: any reply, lost reply or split of the calls."
  },
  {
   "property": "C21",
   "status": "proved",
   "theorems": [
    "C21_dispatch_makes_readable"
   ],
   "note": ""
  },
  {
   "property": "C22",
   "status": "proved",
   "theorems": [
    "C22_acceptance",
    "C22_packets_in_flight"
   ],
   "note": ""
  },
  {
   "property": "C23",
   "status": "proved",
   "theorems": [
    "C23_failed_reply"
   ],
   "note": ""
  },
  {
   "property": "C24",
   "status": "partial",
   "theorems": [
    "C24_headers_present_partial",
    "C24_short_reply_refuted",
    "C24_word_count_refuted"
   ],
   "note": "The code does not check the announced word count or the reply length; the refutations give replies that are accepted. What holds: every reply header slot was filled with a matching header."
  },
  {
   "property": "C25",
   "status": "partial",
   "theorems": [
    "C25_echo_rejected_v2",
    "C25_echo_accepted_v1_refuted"
   ],
   "note": "Proved for IPbus 2.0. For IPbus 1.3 the request and response type codes coincide in the header check, so the echoed request is accepted (refuted)."
  },
  {
   "property": "C26",
   "status": "partial",
   "theorems": [
    "C26_immutable_partial",
    "C26_copies_share",
    "C26_assigned_share",
    "C26_flag",
    "C26_assign_refuted",
    "C26_mask_refuted",
    "C26_clear_refuted",
    "C26_unset_refuted"
   ],
   "note": "Holds for value(x), push_back, assign and value(v), and for sharing between copies; the other mutators operator=, mask, clear and valid(bool) do change a validated value."
  },
  {
   "property": "C56",
   "status": "proved",
   "theorems": [
    "C56_hub_replies"
   ],
   "note": ""
  },
  {
   "property": "C58",
   "status": "proved",
   "theorems": [
    "C58_recovery"
   ],
   "note": ""
  },
  {
   "property": "C18",
   "status": "partial",
   "theorems": [
    "C14_end_to_end",
    "C18_read_refuted",
    "C18_write_refuted"
   ],
   "note": "The full claim is false: the remaining byte count is kept in an int32_t, and the refutations give sizes for which fewer words are transferred without an exception. For sizes below 2^29 words C14_end_to_end shows that every word is transferred."
  },
  {
   "property": "C19",
   "status": "partial",
   "theorems": [
    "C14_end_to_end",
    "C19_v2_refuted",
    "C19_v1_refuted"
   ],
   "note": "The full claim is false: for limits too small for a header and a payload word the refutations exhibit the overrun. For every limit satisfying cfg_ok, C14_end_to_end includes the absence of overruns."
  },
  {
   "property": "C57",
   "status": "proved",
   "theorems": [
    "C57_serialised",
    "C57_readable",
    "C57_no_deadlock"
   ],
   "note": ""
  },
  {
   "property": "C59",
   "status": "proved",
   "theorems": [
    "C59_reused_object",
    "C59_pool",
    "C59_client_calls",
    "C59_client_packets"
   ],
   "note": ""
  },
  {
   "property": "C27",
   "status": "proved",
   "theorems": [
    "C27_denied",
    "C27_granted",
    "C27_only"
   ],
   "note": ""
  },
  {
   "property": "C28",
   "status": "partial",
   "theorems": [
    "C28_bounds_partial",
    "C28_offset_refuted",
    "C28_size_one_refuted",
    "C28_hierarchical_repeats"
   ],
   "note": "The full claim is false: readBlockOffset adds size and offset modulo 2^32, and an incremental node of size 1 has no upper bound. C28_bounds_partial gives the bound in every other case. C28_hierarchical_repeats: block transfers through hierarchical nodes repeat one address."
  },
  {
   "property": "C29",
   "status": "proved",
   "theorems": [
    "C29_has_node"
   ],
   "note": ""
  },
  {
   "property": "C30",
   "status": "proved",
   "theorems": [
    "C30_get_nodes"
   ],
   "note": ""
  },
  {
   "property": "C31",
   "status": "proved",
   "theorems": [
    "C31_lookup_compose",
    "C31_round_trip"
   ],
   "note": ""
  },
  {
   "property": "C32",
   "status": "proved",
   "theorems": [
    "C32_iteration"
   ],
   "note": ""
  },
  {
   "property": "C41",
   "status": "proved",
   "theorems": [
    "C41_unique_handler"
   ],
   "note": ""
  },
  {
   "property": "C38",
   "status": "proved",
   "theorems": [
    "C38_number",
    "C38_one_value",
    "C38_leading_zeros_refuted"
   ],
   "note": "C38_number characterises the accepted strings exactly. Numbers that fit but are written with more than ten digits are refused too, which C38_leading_zeros_refuted records."
  },
  {
   "property": "C33",
   "status": "proved",
   "theorems": [
    "C33_clone",
    "C33_built_copies",
    "C33_assign_refuted"
   ],
   "note": "C33_built_copies covers every tree handed out by the builder, also with repeated sibling ids; C33_clone covers other well-formed trees with distinct sibling ids. The protected copy assignment, which no public call uses, does not copy the firmware info (C33_assign_refuted)."
  },
  {
   "property": "C34",
   "status": "proved",
   "theorems": [
    "C34_addresses"
   ],
   "note": ""
  },
  {
   "property": "C35",
   "status": "proved",
   "theorems": [
    "C35_children",
    "C35_elements"
   ],
   "note": ""
  },
  {
   "property": "C36",
   "status": "partial",
   "theorems": [
    "C36_blocks_partial",
    "C36_refuted"
   ],
   "note": "The full claim is false: the check uses the relative address of the block. C36_blocks_partial: the claim holds when the relative addresses of the ancestors add up to zero; C36_refuted gives an accepted table with a block past the end."
  },
  {
   "property": "C37",
   "status": "proved",
   "theorems": [
    "C37_ids",
    "C37_refused"
   ],
   "note": "The top node may have no id."
  },
  {
   "property": "C39",
   "status": "proved",
   "theorems": [
    "C39_nodes",
    "C39_elements",
    "C39_modes"
   ],
   "note": "C39_modes: the mode of a node whose element says none."
  },
  {
   "property": "C40",
   "status": "proved",
   "theorems": [
    "C40_report",
    "C40_hierarchical",
    "C40_wrap_refuted"
   ],
   "note": "For trees in which no block is empty or runs past 2^32; C40_wrap_refuted shows the second condition is needed."
  },
  {
   "property": "C42",
   "status": "partial",
   "theorems": [
    "C42_bound_partial",
    "C42_stale_refuted"
   ],
   "note": "False for every schedule: C42_stale_refuted has 17 packets unanswered with a limit of 16. C42_bound_partial: the claim for executions in which the callbacks outstanding at an exception run before the exception handler clears it (in particular, all executions up to the first exception)."
  },
  {
   "property": "C43",
   "status": "partial",
   "theorems": [
    "C43_order_partial",
    "C43_stale_refuted"
   ],
   "note": "Same restriction as C42; C43_stale_refuted: a reply received before an exception is accepted as the reply to a packet dispatched after it, and dispatch returns normally."
  },
  {
   "property": "C44",
   "status": "partial",
   "theorems": [
    "C44_return_partial",
    "C44_raise",
    "C44_fail_kept_partial",
    "C44_progress_partial",
    "C44_terminates",
    "C43_stale_refuted"
   ],
   "note": "Same restriction as C42 for the parts named _partial. C44_progress_partial and C44_terminates: a waiting dispatch is always woken."
  },
  {
   "property": "C45",
   "status": "partial",
   "theorems": [
    "C45_places_partial",
    "C45_recovered_partial",
    "C45_no_null_partial",
    "C45_null_refuted",
    "C45_spurious_refuted",
    "C59_pool"
   ],
   "note": "Same restriction as C42. C45_null_refuted: a callback running after the handler dereferences a null pointer; C45_spurious_refuted: it makes the next dispatch fail. The pool itself: C59_pool."
  },
  {
   "property": "C49",
   "status": "partial",
   "theorems": [
    "C49_refuted"
   ],
   "note": "The claim is false: C49_refuted proves that with a zero timeout no reply is ever looked at and no dispatch with a packet returns normally, under every schedule (UDP)."
  },
  {
   "property": "C46",
   "status": "proved",
   "theorems": [
    "C46_frame",
    "C46_order",
    "C46_stream"
   ],
   "note": "For every execution. Hypothesis: packets so short that the bytes of a chunk fit in 32 bits (short), which the send-buffer limits guarantee."
  },
  {
   "property": "C47",
   "status": "partial",
   "theorems": [
    "C47_bound_partial",
    "C47_refuted"
   ],
   "note": "The limits are exceeded by the write in Flush, which does not look at the number in flight: C47_refuted reaches 2, 17 and 63 unanswered packets for limits of 1, 16 and 60. C47_bound_partial: limit outside Flush, limit + chunk size in it, for executions in which at every exception handler no callback is outstanding and the reply queue is empty."
  },
  {
   "property": "C48",
   "status": "partial",
   "theorems": [
    "C48_recovered_partial",
    "C48_refuted"
   ],
   "note": "False: the handler empties the chunks in the reply queue but leaves them in it; C48_refuted is an execution in which the dispatch after next therefore raises. C48_recovered_partial: with an empty reply queue and no callback outstanding the client is as new."
  },
  {
   "property": "C64",
   "status": "partial",
   "theorems": [
    "C64_order_partial",
    "C64_places_partial",
    "C64_order_refuted"
   ],
   "note": "False in general: C64_order_refuted, after an exception with several chunks in flight a reply is put into the buffers of a later packet. Proved for executions in which at every exception handler no callback is outstanding and the reply queue is empty (in particular, all executions up to the first exception)."
  },
  {
   "property": "C65",
   "status": "partial",
   "theorems": [
    "C65_return_partial",
    "C65_raise",
    "C65_fail_kept_partial",
    "C65_progress_partial",
    "C65_terminates",
    "C65_return_refuted"
   ],
   "note": "False in general: C65_return_refuted, after an exception with several chunks in flight dispatch returns before all packets are answered. Restriction as C64 for the theorems named _partial; C65_progress_partial leaves out the synchronous read of the body of a reply (C66)."
  },
  {
   "property": "C66",
   "status": "partial",
   "theorems": [
    "C65_progress_partial",
    "C65_terminates",
    "C66_stalled_refuted"
   ],
   "note": "Outside the synchronous read of the body of a reply the deadline does end a dispatch (C65_progress_partial, C65_terminates). In it the claim is false: C66_stalled_refuted proves that until the body of the reply arrives the dispatch stays waiting whatever else happens, because the deadline is examined by the same thread that is blocked in the synchronous read."
  },
  {
   "property": "C67",
   "status": "partial",
   "theorems": [
    "C67_zero_timeout_refuted"
   ],
   "note": "The claim is false, as C49 for UDP: under every schedule no reply is looked at and no dispatch with a packet returns normally."
  },
  {
   "property": "C50",
   "status": "proved",
   "theorems": [
    "C50_pages"
   ],
   "note": "All executions, any number of clients, failures at any time, polling or interrupts."
  },
  {
   "property": "C51",
   "status": "partial",
   "theorems": [
    "C51_polling_partial",
    "C51_timeout_refuted",
    "C51_interrupt_refuted"
   ],
   "note": "False in interrupt mode (after the first reply the counts differ for good) and after a timeout (a late reply is counted for the next request). Proved for polling when sessions begin with everything answered and no session begins between another client's unlock and endSession."
  },
  {
   "property": "C52",
   "status": "proved",
   "theorems": [
    "C52_copy",
    "C52_bounds",
    "C52_same"
   ],
   "note": "Never out of bounds for any 32-bit header word; C52_copy gives the exact result, with the one case of std::out_of_range."
  },
  {
   "property": "C53",
   "status": "partial",
   "theorems": [
    "C53_effect",
    "C53_even_partial",
    "C53_pcie",
    "C53_refuted"
   ],
   "note": "False for an odd number of words (header included): the word after the packet becomes 0 (C53_refuted). C53_effect is the exact effect for every length; C53_pcie: the PCIe write has no such effect."
  },
  {
   "property": "C54",
   "status": "partial",
   "theorems": [
    "C54_partial",
    "C54_calm_partial",
    "C54_refuted",
    "C54_timeout_refuted"
   ],
   "note": "False: race between unlock and endSession in Flush (C54_refuted); with hardware that reports the index late also after a timeout (C54_timeout_refuted). Proved without that race."
  },
  {
   "property": "C68",
   "status": "partial",
   "theorems": [
    "C68_pcie",
    "C68_pages",
    "C68_mmap_refuted"
   ],
   "note": "Proved for PCIe and for the number of pages; mmap clients ignore max_in_flight."
  },
  {
   "property": "C69",
   "status": "partial",
   "theorems": [
    "C69_inevitable_partial",
    "C69_flush_partial",
    "C95_progress_partial"
   ],
   "note": "For the executions of C51_polling_partial: whatever the other clients do before and during the flush, the number of the client's steps is bounded, it can always go on (at once or after the next reply of the hardware), and at the end all replies are read (C69_inevitable_partial). Through whole dispatch() calls: C95_progress_partial."
  },
  {
   "property": "C70",
   "status": "partial",
   "theorems": [
    "C70_pcie_partial",
    "C70_mmap_partial",
    "C70_workaround_refuted",
    "C70_empty_refuted",
    "C70_stride_refuted",
    "C70_wrap_refuted"
   ],
   "note": "Proved for pages of at least one word (mmap: at most 4096) and less than 4 GB of pages; refuted for pages of no words, mmap with longer pages, 4 GB of pages, and for reads with the 7-series workaround."
  },
  {
   "property": "C71",
   "status": "proved",
   "theorems": [
    "C71_header"
   ],
   "note": ""
  },
  {
   "property": "C72",
   "status": "partial",
   "theorems": [
    "C72_write",
    "C72_read",
    "C72_odd_refuted"
   ],
   "note": "Writes: proved for an even number of words per page; with an odd number the store can pass the end of the mapping (C72_odd_refuted)."
  },
  {
   "property": "C60",
   "status": "proved",
   "theorems": [
    "C60_manager",
    "C60_once"
   ],
   "note": ""
  },
  {
   "property": "C61",
   "status": "proved",
   "theorems": [
    "C61_round_trip",
    "C61_spaces",
    "C61_no_port_refuted"
   ],
   "note": "C61_no_port_refuted: a record with a path but without a port is not well formed, and is not found again."
  },
  {
   "property": "C62",
   "status": "proved",
   "theorems": [
    "C62_created",
    "C62_refused",
    "C62_builtin_kept"
   ],
   "note": ""
  },
  {
   "property": "C63",
   "status": "partial",
   "theorems": [
    "C63_values_partial",
    "C63_mean_partial",
    "C63_mean_refuted",
    "C63_clear_refuted",
    "C63_clear_partial",
    "C63_mean_after_clear_refuted"
   ],
   "note": "Size, minimum, maximum and latest values proved; the mean needs mSum to be 0 at construction, which the code does not ensure; clear is undefined behaviour after more than five measurements and does not reset the sum."
  },
  {
   "property": "C73",
   "status": "partial",
   "theorems": [
    "C73_nothing_lost",
    "C73_rest",
    "C73_whole_refuted"
   ],
   "note": "Nothing is lost or invented in the part that is read; text after the end of the grammar is silently ignored."
  },
  {
   "property": "C74",
   "status": "partial",
   "theorems": [
    "C74_files_partial",
    "C74_one_file",
    "C74_space_refuted"
   ],
   "note": "C74_one_file: an address table expression that names no file or several is refused. Proved for items without white space; white space in file names is dropped."
  },
  {
   "property": "C75",
   "status": "partial",
   "theorems": [
    "C75_params",
    "C75_read",
    "C75_found",
    "C75_node",
    "C75_module",
    "C75_cut_refuted"
   ],
   "note": "Lists joined by semicolons or ampersands are found completely (C75_params, C75_read) and nothing else is found (C75_found). The other half of the claim is false: any other text, also one with a blank after a separator, is silently cut instead of refused (C75_cut_refuted)."
  },
  {
   "property": "C76",
   "status": "proved",
   "theorems": [
    "C76_timing",
    "C76_call"
   ],
   "note": "Executions of Net.v made of calls, dispatches, their returns and replies, starting in any reachable state; a failing reply, a timeout and a refused packet are excluded by the hypothesis that the first execution does not fail. C76_call is the same for one call over arbitrary handles and unanswered packets."
  },
  {
   "property": "C77",
   "status": "proved",
   "theorems": [
    "C77_as_new"
   ],
   "note": "Executions of Net.v, in which the transport gives up all its packets when an exception is handled. Whether the transports do this is the subject of C45, C48 and C54, with their findings."
  },
  {
   "property": "C78",
   "status": "partial",
   "theorems": [
    "C78_where",
    "C78_own_client_partial",
    "C78_erase_refuted"
   ],
   "note": "C78_where says where accesses go after any sequence. Without assignment of HwInterface variables the claim holds (C78_own_client_partial). With assignment it is false: C78_erase_refuted erases the first of three elements of a vector, and the nodes of the first element then use the third device's client, those of the second a destroyed object."
  },
  {
   "property": "C79",
   "status": "partial",
   "theorems": [
    "C79_described",
    "C79_copy_refuted"
   ],
   "note": "C79_described says for any sequence which tree the client has. The claim holds while the variable last constructed on the client lives; C79_copy_refuted shows that making and destroying a copy leaves the client without a tree."
  },
  {
   "property": "C80",
   "status": "partial",
   "theorems": [
    "C80_read",
    "C80_found",
    "C80_spaces",
    "C80_refused",
    "C80_node",
    "C80_table_refused",
    "C80_cut_refuted"
   ],
   "note": "Well-formed texts are read completely, and nothing is found that is not written. An item that begins with = ends the reading without an exception, which C80_cut_refuted shows for every text."
  },
  {
   "property": "C81",
   "status": "proved",
   "theorems": [
    "C81_accepted",
    "C81_one_result",
    "C81_ends"
   ],
   "note": "For files that do not change while the table is read. A circular inclusion recurses without end; the model shows it as BFuel for every fuel."
  },
  {
   "property": "C82",
   "status": "proved",
   "theorems": [
    "C82_as_new",
    "C82_table",
    "C82_read_once",
    "C82_stack"
   ],
   "note": ""
  },
  {
   "property": "C83",
   "status": "partial",
   "theorems": [
    "C83_udp_partial",
    "C83_tcp_partial",
    "C83_udp_safe_partial",
    "C83_tcp_safe_partial",
    "C83_udp_return_partial",
    "C83_tcp_return_partial",
    "C83_tcp_return_refuted"
   ],
   "note": "For executions whose exception handlers are quiet (UDP) or clean (TCP), see DESIGN.md. False without this: C84_stale_refuted, C45_null_refuted, C83_tcp_return_refuted (dispatch() over TCP returns with a handle that holds nothing)."
  },
  {
   "property": "C84",
   "status": "partial",
   "theorems": [
    "C84_udp_partial",
    "C84_tcp_partial",
    "C84_stale_refuted"
   ],
   "note": "As C83. False in general: C84_stale_refuted, a callback left over from before an exception gives the reply of an old packet to a new one, and dispatch() returns with wrong data."
  },
  {
   "property": "C85",
   "status": "partial",
   "theorems": [
    "C85_once",
    "C85_restart",
    "C85_stale_refuted"
   ],
   "note": "Complete for datagrams not later than a number of requests that together with the window and the depth of the history stays below 65534. False with datagrams of an earlier device client: C85_stale_refuted."
  },
  {
   "property": "C86",
   "status": "partial",
   "theorems": [
    "C86_told",
    "C86_timely",
    "C86_short_refuted",
    "C86_malformed_refuted",
    "C86_stopped_refuted",
    "C86_order_refuted"
   ],
   "note": "Complete for executions in which no process ends by a failed match; C86_timely shows that none does if all requests are control packets, no datagram comes from outside and none is too late. The rest is false: the four refuted theorems."
  },
  {
   "property": "C87",
   "status": "proved",
   "theorems": [
    "C87_recovery"
   ],
   "note": "For all states reachable as in C85."
  },
  {
   "property": "C88",
   "status": "partial",
   "theorems": [
    "C88_chunk",
    "C88_replies",
    "C88_reply_bytes",
    "C88_malformed_refuted",
    "C88_malformed_after_refuted",
    "C88_two_targets_refuted",
    "C88_switch_refuted",
    "C88_unnamed_refuted"
   ],
   "note": "Complete for a client whose chunks are well formed, not empty and all for one target, with all responses naming that target. False without each of these: the refuted theorems."
  },
  {
   "property": "C89",
   "status": "proved",
   "theorems": [
    "C89_clients",
    "C89_quiet"
   ],
   "note": "Within the bound on the lateness of datagrams of C85; the target is let through by the allowlist and the chunks are well formed (see C88, C90 for the rest)."
  },
  {
   "property": "C90",
   "status": "partial",
   "theorems": [
    "C90_last",
    "C90_access",
    "C90_access_iff",
    "C90_blocked",
    "C90_permissive",
    "C90_ports_refuted",
    "C90_blocked_count_refuted"
   ],
   "note": "For the lines as read; the text: C98. False: two ports of one address in the file (C90_ports_refuted), one reply for a blocked chunk of several requests (C90_blocked_count_refuted)."
  },
  {
   "property": "C91",
   "status": "proved",
   "theorems": [
    "C91_shared",
    "C91_progress",
    "C91_no_lost_update"
   ],
   "note": "Calls as in C14 (blocks below 2^29 words, masks other than 0); a packet is processed by the target in one step, as the targets do. C91_no_lost_update is for a memory in which the register is written only by rmw_sum."
  },
  {
   "property": "C92",
   "status": "proved",
   "theorems": [
    "C92_full",
    "C92_no_lost_update"
   ],
   "note": "Within the bound on the lateness of datagrams of C85; also after the device client has given up (C92_dead_case): a client that gets one of its errors throws and does nothing any more, the others and everything returned before are right. Calls as in C14 with 32-bit words; the threads of the TCP client and its exception handler are in C65 and C67, not here."
  },
  {
   "property": "C93",
   "status": "partial",
   "theorems": [
    "C93_once_partial",
    "C93_dup_reply_refuted",
    "C93_dup_request_refuted"
   ],
   "note": "Proved for networks that lose, delay and reorder, but do not repeat datagrams; false of the code if they repeat them (C93_dup_reply_refuted: a repeated reply is given to the next client; C93_dup_request_refuted: a repeated request is carried out twice). A device client and its target from the first request on, without datagrams from others."
  },
  {
   "property": "C94",
   "status": "partial",
   "theorems": [
    "C94_board_partial",
    "C94_no_lost_update_partial",
    "C94_interrupt_refuted",
    "C94_race_refuted"
   ],
   "note": "Proved for clients that poll, as long as no session begins between the release of the lock and the end of the session before it, and nothing times out; false of the code otherwise (C94_race_refuted: another client's data, without an error; C94_interrupt_refuted: an exception).  Pages as lists of words (their layout is C70-C72)."
  },
  {
   "property": "C95",
   "status": "partial",
   "theorems": [
    "C95_progress_partial",
    "C95_holder_refuted"
   ],
   "note": "For clients that poll, no session beginning between the release of the lock and the end of the session before it (C94), and hardware that answers; false if the client with the lock is not in dispatch() (C95_holder_refuted)."
  },
  {
   "property": "C96",
   "status": "partial",
   "theorems": [
    "C96_restored_partial",
    "C96_bus_error",
    "C96_warning_partial",
    "C96_not_blocked_refuted",
    "C96_warning_refuted"
   ],
   "note": "For threads that make guards only with SIGBUS blocked; false otherwise (C96_not_blocked_refuted). The warning: as long as no access throws an exception of its own (C96_warning_refuted)."
  },
  {
   "property": "C97",
   "status": "partial",
   "theorems": [
    "C97_history",
    "C97_one_client",
    "C97_answered",
    "C97_fresh_partial",
    "C97_lost_refuted",
    "C97_crash_refuted"
   ],
   "note": "All but the last clause proved in full. That no request goes to a device client that has stopped holds for lookups made when no end is unknown to the registry (C97_fresh_partial), and is false otherwise (C97_lost_refuted)."
  },
  {
   "property": "C98",
   "status": "partial",
   "theorems": [
    "C98_read",
    "C98_only",
    "C98_closed",
    "C98_access",
    "C98_cut_refuted",
    "C98_start_refuted"
   ],
   "note": "Lines of the documented form are read as written (C98_read, C98_access). For every text: nothing is granted unless a line has parts beginning with the numbers of the target (C98_only), and a line with nothing like an address leaves no target reachable (C98_closed). False: lines of another form are accepted (C98_cut_refuted), and the ControlHub starts with a refused file (C98_start_refuted)."
  },
  {
   "property": "C99",
   "status": "partial",
   "theorems": [
    "C99_device",
    "C99_answered",
    "C99_finish",
    "C99_lost_refuted"
   ],
   "note": "C99_device: at most 40 n + 33 steps of its own for n requests, whatever comes from the network or from elsewhere, and never stuck while somebody waits. C99_answered, C99_finish: the same for the whole ControlHub with any number of clients; from every state it can finish by itself within the bound. The full claim is false only for requests that reach a device client that has just stopped (C99_lost_refuted); the positive theorems say that this is the only case."
  },
  {
   "property": "C100",
   "status": "partial",
   "theorems": [
    "C100_bounded",
    "C100_ends"
   ],
   "note": "C100_ends: from every reachable state (device client alive or not) the client and the ControlHub alone bring dispatch() to its end within 42 (packets) + (chunks in flight) + 36 steps, with the results (C92) or an exception. Left out: the case that one of its requests came to a device client that had stopped, in which the full claim is false of the ControlHub (C99_lost_refuted); there only the timeout of the TCP client, not modelled here, ends the call."
  },
  {
   "property": "C101",
   "status": "partial",
   "theorems": [
    "C101_whole",
    "C101_exact",
    "C101_overrun",
    "C101_tail",
    "C101_sent",
    "C101_stale_refuted",
    "C101_config_refuted"
   ],
   "note": "Proved for whole packets (C101_whole), in particular for all packets the client sends (C101_sent); for arbitrary words what is reported accounts for the words read (C101_exact). Two parts are false of the code: no word outside the packet is looked at (C101_stale_refuted; C101_overrun and C101_tail say for which packets exactly) and replies to configuration space reads are reported (C101_config_refuted)."
  },
  {
   "property": "C102",
   "status": "partial",
   "theorems": [
    "C102_text",
    "C102_ends_partial",
    "C102_own_partial",
    "C102_built",
    "C102_failed_word",
    "C102_root_refuted",
    "C102_top_refuted",
    "C102_config_refuted"
   ],
   "note": "Proved (C102_text; C102_built for trees from address tables) unless a block ends with the address space (C102_top_refuted: it is not named) or the root of the tree has the address too (C102_root_refuted: the process is ended; C102_ends_partial: this happens exactly then). C102_own_partial: the node used is among those named, with the exceptions of C28. C102_failed_word: the address reported is that of the word at which the reply stops, in blocks of all modes. C102_config_refuted: a configuration-space read names ordinary registers."
  },
  {
   "property": "C103",
   "status": "proved",
   "theorems": [
    "C103_udp",
    "C103_udp_returns",
    "C103_tcp",
    "C103_tcp_returns"
   ],
   "note": "For every timeout other than zero (zero: C49, C67). Executions start with a new client or after an exception whose outstanding callbacks have all run; the rest of what C103 supposes of network and device is in fine (CalmUdp.v) and tfine (CalmTcp.v)."
  },
  {
   "property": "C104",
   "status": "proved",
   "theorems": [
    "C104_udp",
    "C104_udp_returns",
    "C104_tcp",
    "C104_tcp_returns"
   ],
   "note": "For every timeout other than zero (zero: C49, C67). Executions start with a new client or with an exception whose outstanding callbacks have all run. What the network does right is in okay and tokay; the verdicts of validate() are not supposed but proved to be favourable."
  },
  {
   "property": "C105",
   "status": "partial",
   "theorems": [
    "C105_accepts",
    "C105_others",
    "C105_left",
    "C105_leak_refuted"
   ],
   "note": "Accepting and independence are proved in full. That no processes are left is false of the code after failures of accept or peername (C105_leak_refuted); C105_left gives the exact number left, so none with no such failure."
  },
  {
   "property": "C106",
   "status": "partial",
   "theorems": [
    "C106_clients",
    "C106_active_partial",
    "C106_peak",
    "C106_alive",
    "C106_rows",
    "C106_traffic_partial",
    "C106_crash_refuted",
    "C106_blocked_refuted"
   ],
   "note": "All-time connections, peak, rows and the life of the process are proved in full. Active connections: exact number proved (C106_clients), which is too high after failures (C106_crash_refuted). Counters: exact (C106_rows), without the replies for blocked targets (C106_blocked_refuted)."
  },
  {
   "property": "C107",
   "status": "proved",
   "theorems": [
    "C107_variable",
    "C107_fixed",
    "C107_different",
    "C107_read_back"
   ],
   "note": "In the model the shift of a negative value of a signed type shifts its bits, and only the pointer finally read from is looked at (see IntText.v)."
  },
  {
   "property": "C108",
   "status": "partial",
   "theorems": [
    "C108_runs",
    "C108_freed",
    "C108_delete",
    "C108_clone",
    "C108_convert",
    "C108_assign_partial",
    "C108_self_refuted",
    "C108_descendant_refuted",
    "C108_leak_refuted"
   ],
   "note": "False of the code in three cases: a node assigned to itself loses its children, a node assigned one of its descendants uses it after it was deleted, and nodes of a table whose reading fails are never deleted. The contents after an assignment are proved for nodes neither of which is a descendant of the other; that an ancestor can be assigned safely is in C108_runs. Copies have the class that clone() of the source makes (keep in NodeHeap.v)."
  },
  {
   "property": "C109",
   "status": "partial",
   "theorems": [
    "C109_open_partial",
    "C109_single",
    "C109_pause_refuted"
   ],
   "note": "Proved for runs in which the deadline does not pass while packets wait to be sent (without a ControlHub packets wait only while the network is awaited: C109_single) and exceptions are handled when nothing is outstanding. The rest of the claim is false of the code: C109_pause_refuted."
  },
  {
   "property": "C110",
   "status": "partial",
   "theorems": [
    "C110_right",
    "C110_short_partial",
    "C110_overrun_refuted",
    "C110_what_refuted"
   ],
   "note": "Proved for texts below 65536 characters and without self-assignment; what() on an exception without text counts as appending the description. The rest of the claim is false of the code: C110_overrun_refuted, C110_what_refuted."
  },
  {
   "property": "C111",
   "status": "partial",
   "theorems": [
    "C111_time",
    "C111_alone",
    "C111_threads",
    "C111_written",
    "C111_ends",
    "C111_fill_refuted",
    "C111_mixed_refuted"
   ],
   "note": "Proved: levels and output of one thread (C111_alone), lines of any threads (C111_threads), what several threads write when the level was set before (C111_written), termination (C111_ends). The last sentence of the claim is false of the code: C111_fill_refuted, C111_mixed_refuted."
  },
  {
   "property": "C112",
   "status": "partial",
   "theorems": [
    "C112_counts",
    "C112_report",
    "C112_total",
    "C112_catches_up",
    "C112_silent13",
    "C112_received_refuted",
    "C112_timeout13_refuted"
   ],
   "note": "Proved for all runs except the last part of the claim, which is false of the code: \"Packets In\" misses datagrams that were not expected (C112_received_refuted), and timeouts of IPbus 1.3 targets are never counted (C112_silent13, C112_timeout13_refuted)."
  },
  {
   "property": "C113",
   "status": "partial",
   "theorems": [
    "C113_http",
    "C113_failures",
    "C113_pieces",
    "C113_any",
    "C113_local",
    "C113_no_headers_refuted",
    "C113_no_reason_refuted",
    "C113_cut_refuted",
    "C113_errors_refuted",
    "C113_unset_refuted",
    "C113_expression_refuted",
    "C113_empty_refuted"
   ],
   "note": "Proved: local files that are not empty; replies with a reason and a header (leading white space of the body is dropped); lost connections; any cutting into pieces; the buffer. The rest of the claim is false of the code: see the _refuted theorems."
  },
  {
   "property": "C114",
   "status": "partial",
   "theorems": [
    "C114_reads",
    "C114_only",
    "C114_safe",
    "C114_report_partial",
    "C114_zero_refuted",
    "C114_past_end_refuted",
    "C114_length_error_refuted",
    "C114_line_refuted",
    "C114_text_refuted",
    "C114_last_refuted",
    "C114_first_line_refuted",
    "C114_latin_refuted",
    "C114_accepts_refuted"
   ],
   "note": "Proved: all well-formed UTF-8 files, with or without a document type and its internal subset, are read as the document they stand for; files without zero bytes are accepted only if they follow a rough grammar (balanced tags of equal names, quoted attributes, everything closed, nothing left over), and the document read has the shape of the file; for all files the parser stays in its buffer and ends; the report about places inside a line. The rest of the claim is false of the code: see the _refuted theorems. Not modelled: UTF-16 and UTF-32."
  },
  {
   "property": "C115",
   "status": "partial",
   "theorems": [
    "C115_file",
    "C115_count",
    "C115_element",
    "C115_tree",
    "C115_layout",
    "C115_device",
    "C115_dropped_refuted",
    "C115_second_refuted",
    "C115_name_refuted"
   ],
   "note": "Everything but the last sentence of the claim is proved, from the bytes of the files; the last is false of the code (see the _refuted theorems). Left out: connection files that are not well-formed are only known to have no entries; which files an expression finds on disk is any function (C113 for the opening of one file)."
  },
  {
   "property": "C116",
   "status": "partial",
   "theorems": [
    "C116_extract",
    "C116_text",
    "C116_reached",
    "C116_full",
    "C116_log",
    "C116_second_refuted"
   ],
   "note": "All but the last sentence is proved; that one is false of the code. The resolver is any function that gives IPv4 addresses and ports; the host is little-endian; the maximum send size is below 2^18 (it is 1400 in the code), as the number of words of a packet has 16 bits. C116_full connects C92 with URIs."
  },
  {
   "property": "C117",
   "status": "partial",
   "theorems": [
    "C117_same",
    "C117_kinds",
    "C117_one",
    "C117_get",
    "C117_copies",
    "C117_wanted_partial",
    "C117_unknown_refuted",
    "C117_name_refuted",
    "C117_registry"
   ],
   "note": "C117_kinds says which class each object has. That it is the class asked for is false of the code for elements that name an unknown class and include a module (C117_unknown_refuted) and proved for tables without such elements (C117_wanted_partial); that the class name is that of the class is false for modules (C117_name_refuted). Hypotheses: std::sort permutes and does not look at classes; registered classes and Node have a clone() of their own, as the registration macro defines. The constructor of a user class from a Node is taken to do what the copy constructor of Node does."
  },
  {
   "property": "C118",
   "status": "partial",
   "theorems": [
    "C118_body",
    "C118_stream",
    "C118_quiet",
    "C118_file",
    "C118_told",
    "C118_throws_refuted",
    "C118_full_refuted",
    "C118_name",
    "C118_name_refuted"
   ],
   "note": "The text (C118_body, C118_stream), the silence (C118_quiet), the file when nothing goes wrong (C118_file) and the one message (C118_told) are proved. That no failure keeps the table from being read, that the message is always true and that each table has a file of its own are false of the code (C118_throws_refuted, C118_full_refuted, C118_name_refuted); C118_name says exactly which tables share a file. Blocks are taken to fit the address space, as in C40; the file system is a record of what its calls answer."
  },
  {
   "property": "C119",
   "status": "partial",
   "theorems": [
    "C119_index",
    "C119_long_refuted",
    "C119_slice",
    "C119_str",
    "C119_str_word",
    "C119_iter",
    "C119_iter_invalid",
    "C119_iter_refuted",
    "C119_word",
    "C119_float_refuted"
   ],
   "note": "Indices of vectors below 2^31 words, slices, texts, iterators while a handle is kept, and words with whole numbers and words are proved. False of the code: iterators that outlive the vector (C119_iter_refuted), words with fractions (C119_float_refuted), indices of longer vectors (C119_long_refuted). An index that is no C int is a TypeError (in C119_index). pybind11 and CPython are modelled from their documentation. Not modelled: the buffer interface."
  },
  {
   "property": "C120",
   "status": "partial",
   "theorems": [
    "C120_select",
    "C120_registers_partial",
    "C120_inner_partial",
    "C120_tree",
    "C120_covered",
    "C120_accepts",
    "C120_nested_refuted",
    "C120_span_refuted",
    "C120_names_refuted"
   ],
   "note": "Selection, alignment, disjointness, numbers and the width of the selector are proved for all trees (C120_select), that every register is in an endpoint (C120_covered), that flat tables of endpoints that fit are accepted (C120_accepts). The addresses of registers are proved for endpoints with no endpoints in them (C120_registers_partial) and with endpoints directly in them that have widths and do not overlap (C120_inner_partial, if the logarithm is never too small); with groups in between it is false of the code (C120_nested_refuted). Also false: names of constants are not distinct (C120_names_refuted), correct tables with spans of 2^29 words are refused (C120_span_refuted). The tree made from the list of nodes is that of the table, for ids without dots (C120_tree). What is asked of the device and the text of the file are not modelled."
  },
  {
   "property": "C121",
   "status": "proved",
   "theorems": [
    "C121_snapshot",
    "C121_poll",
    "C121_client",
    "C121_groups_refuted"
   ],
   "note": "Both programs, for all trees, expressions and devices. C121_client: the same through client, packets and target (C14), for registers not changed by being read. Finding: the script reads nodes that only group others too, so that it may show nothing although every register answers (C121_groups_refuted)."
  },
  {
   "property": "C122",
   "status": "proved",
   "theorems": [
    "C122_tree",
    "C122_paths",
    "C122_devices",
    "C122_left_out_refuted"
   ],
   "note": "For all well-formed trees. Finding: a device that cannot be had is not left out, as the comment on the function says; its exception leaves the constructor and nothing is shown (C122_left_out_refuted)."
  },
  {
   "property": "C123",
   "status": "partial",
   "theorems": [
    "C123_own_partial",
    "C123_panel_partial",
    "C123_devices",
    "C123_add_partial",
    "C123_endpoint_rows",
    "C123_node_rows_partial",
    "C123_row_partial",
    "C123_other_refuted",
    "C123_row_refuted"
   ],
   "note": "The code violates the property: see the two refuted theorems.  Proved where no other end point in a message has a name that is part of the table's id, and where no node above the node selected has its id."
  }
 ]
}