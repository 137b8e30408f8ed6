{
 "claims": [
  {
   "property": "C01",
   "status": "proved",
   "theorems": [
    "C01_packets_survive_the_wire"
   ],
   "note": ""
  },
  {
   "property": "C02",
   "status": "partial",
   "theorems": [
    "C02_master_id_refuted",
    "C02_master_id_partial"
   ],
   "note": "Refuted: rp_decode_payload stores the reassembled 64-bit id into a 16-bit field; the partial theorem shows what does arrive (the low 16 bits)."
  },
  {
   "property": "C03",
   "status": "proved",
   "theorems": [
    "C03_stream_framing"
   ],
   "note": ""
  },
  {
   "property": "C04",
   "status": "proved",
   "theorems": [
    "C04_read_returns_next_bytes",
    "C04_read_fails_only_on_error",
    "C04_read_completes",
    "C04_packet_reception_schedule_independent",
    "C04_packet_reception_completes"
   ],
   "note": ""
  },
  {
   "property": "C05",
   "status": "proved",
   "theorems": [
    "C05_write_sends_prefix",
    "C05_write_fails_only_on_error",
    "C05_write_completes"
   ],
   "note": ""
  },
  {
   "property": "C06",
   "status": "proved",
   "theorems": [
    "C06_own_response",
    "C06_no_failure",
    "C06_response_not_lost"
   ],
   "note": ""
  },
  {
   "property": "C07",
   "status": "proved",
   "theorems": [
    "C07_capability_negotiation",
    "C07_capability_first_hello"
   ],
   "note": ""
  },
  {
   "property": "C08",
   "status": "proved",
   "theorems": [
    "C08_remote_equals_local",
    "C08_remote_memory",
    "C08_byte_enables_refused"
   ],
   "note": ""
  },
  {
   "property": "C09",
   "status": "proved",
   "theorems": [
    "C09_response_classes",
    "C09_failure_never_reported_as_success"
   ],
   "note": ""
  },
  {
   "property": "C10",
   "status": "proved",
   "theorems": [
    "C10_chunks_tile"
   ],
   "note": ""
  },
  {
   "property": "C11",
   "status": "proved",
   "theorems": [
    "C11_chunks_within_limits"
   ],
   "note": ""
  },
  {
   "property": "C12",
   "status": "proved",
   "theorems": [
    "C12_transparent",
    "C12_memory_prefix"
   ],
   "note": ""
  },
  {
   "property": "C13",
   "status": "proved",
   "theorems": [
    "C13_each_output_once",
    "C13_writes_same_data",
    "C13_ok_iff_all_ok",
    "C13_checked_reads_agree",
    "C13_always_completes",
    "C13_wire_splitter"
   ],
   "note": ""
  },
  {
   "property": "C14",
   "status": "partial",
   "theorems": [
    "C14_wrap_expanded_partial",
    "C14_wrap_effect_partial",
    "C14_wrap_touches_block",
    "C14_plain_unchanged",
    "C14_single_payload_refuted"
   ],
   "note": "Proved for two-payload mode and for single-payload mode when the start address is aligned to the burst length; refuted for single-payload mode with an unaligned start (bytes are not rotated). Missing: streaming widths shorter than the data."
  },
  {
   "property": "C15",
   "status": "partial",
   "theorems": [
    "C15_exclusive_write_partial",
    "C15_aligned_blocks_partial",
    "C15_others_forwarded",
    "C15_overlap_refuted"
   ],
   "note": "Proved for the relation the code uses (a write that starts inside a reserved range cancels it), and for true overlap when all accesses are aligned blocks of one size; refuted for general overlap."
  },
  {
   "property": "C16",
   "status": "partial",
   "theorems": [
    "C16_routed_partial",
    "C16_map_accepted",
    "C16_unique_region_partial",
    "C16_no_region_refuted",
    "C16_address_not_restored_refuted"
   ],
   "note": "Delivery proved for every map. Refuted: an unmapped address continues with an unassigned offset (undefined behaviour) instead of an address error, and with a non-zero initiator offset the payload comes back with the translated address."
  },
  {
   "property": "C17",
   "status": "proved",
   "theorems": [
    "C17_bits_after_history",
    "C17_bad_accesses"
   ],
   "note": ""
  },
  {
   "property": "C18",
   "status": "partial",
   "theorems": [
    "C18_clearing_partial",
    "C18_cor_returned_refuted",
    "C18_w1c_zero_refuted"
   ],
   "note": "What the code clears is proved. Refuted: a clear-on-read bit is cleared before the value is returned, and any write clears w1c bits."
  },
  {
   "property": "C19",
   "status": "partial",
   "theorems": [
    "C19_mask32",
    "C19_mask64",
    "C19_field32",
    "C19_deposit_partial",
    "C19_extract_deposit_partial",
    "C19_deposit_extract",
    "C19_deposit_spills_refuted",
    "C19_buf_bv_roundtrip"
   ],
   "note": "Masks, extraction and insertion proved for all widths. Insertion needs a value that fits the field: a wider one spills (refuted). Extraction is for fields below 64 bits."
  },
  {
   "property": "C20",
   "status": "proved",
   "theorems": [
    "C20_crc_is_ieee",
    "C20_crc_composes",
    "C20_crc_detects_bursts"
   ],
   "note": ""
  },
  {
   "property": "C21",
   "status": "partial",
   "theorems": [
    "C21_copy_partial",
    "C21_clone",
    "C21_io_access_refuted"
   ],
   "note": "Refuted for IO_access, which copy_from omits (clone keeps it); all other attributes proved."
  },
  {
   "property": "C22",
   "status": "partial",
   "theorems": [
    "C22_ids_unique_partial",
    "C22_return_and_get",
    "C22_two_waiters_refuted"
   ],
   "note": "Uniqueness and reuse proved for all histories; refuted: one return wakes two waiters and the second pops from an empty list."
  },
  {
   "property": "C23",
   "status": "proved",
   "theorems": [
    "C23_fill_tracking",
    "C23_status",
    "C23_flags",
    "C23_new_line"
   ],
   "note": ""
  },
  {
   "property": "C24",
   "status": "partial",
   "theorems": [
    "C24_copy_partial",
    "C24_overlap_refuted"
   ],
   "note": "Proved for every length when source and destination do not overlap forwards and accesses succeed. Refuted for forward overlap. There is no interrupt output in the code; completion is the IOC bit of the status register."
  },
  {
   "property": "C25",
   "status": "partial",
   "theorems": [
    "C25_single_writer_partial",
    "C25_exclusive_refuted"
   ],
   "note": "Proved for every history without exclusive accesses. Refuted with them: an exclusive CleanUnique that loses at the interconnect is answered without snoops, yet the cache marks the line unique. Maintenance of more than one line or of part of a line is not covered."
  },
  {
   "property": "C26",
   "status": "partial",
   "theorems": [
    "C26_loads_see_latest_partial",
    "C26_served_partial",
    "C26_exclusive_refuted",
    "C26_sparse_store_refuted",
    "C26_clean_invalid_refuted",
    "C26_write_through_refuted",
    "C26_secure_refuted",
    "C26_mixed_refuted"
   ],
   "note": "Proved, for all interleavings, for non-secure loads, stores and CleanShared without exclusives, all caches write-through or at most one of them; a write-through store within a line; a write-back store of a whole line with no byte disabled. Each restriction has its own refutation except that failed downstream accesses are not modelled. served: every request is answered after exactly its bytes have been carried out in order."
  },
  {
   "property": "C27",
   "status": "partial",
   "theorems": [
    "C27_disjoint_partial",
    "C27_waiting_partial",
    "C27_order_partial",
    "C27_newcomer_partial",
    "C27_order_refuted"
   ],
   "note": "Disjointness, no lost wake-up, first come first served among equal ranges. Refuted: a newcomer overtakes a waiting transaction it overlaps when nothing in progress overlaps it. Zero-length requests are not covered."
  },
  {
   "property": "C28",
   "status": "partial",
   "theorems": [
    "C28_monitor_partial",
    "C28_unaligned_refuted",
    "C28_evicted_refuted",
    "C28_lost_refuted"
   ],
   "note": "The interconnect's monitor alone is sound between grants; the pair of monitors is not (three refutations)."
  },
  {
   "property": "C29",
   "status": "partial",
   "theorems": [
    "C29_incr_partial",
    "C29_fixed_partial",
    "C29_wrap_partial",
    "C29_wide_refuted",
    "C29_fixed_unaligned_refuted",
    "C29_fixed_narrow_refuted",
    "C29_fixed_enables_refuted",
    "C29_wrap_narrow_refuted",
    "C29_wrap_beats_refuted"
   ],
   "note": "Proved for INCR (any alignment, width, enables), FIXED whose streaming width equals what a beat moves and whose enables repeat, WRAP starting on a beat boundary; refusal exactly when too many beats. Refuted outside: burst_width wider than the bus, unaligned or narrow FIXED, FIXED byte enables, narrow WRAP lanes, WRAP beat counts."
  },
  {
   "property": "C30",
   "status": "partial",
   "theorems": [
    "C30_incr_partial",
    "C30_fixed_partial",
    "C30_wrap_partial",
    "C30_memory",
    "C30_error_refuted",
    "C30_interleaving_refuted"
   ],
   "note": "Data proved for the same three cases against any slave, and against a memory. Refuted: an error on a beat other than the last is lost; read data interleaved between ids is mixed up."
  },
  {
   "property": "C31",
   "status": "partial",
   "theorems": [
    "C31_incr_write_partial",
    "C31_fixed_write_partial",
    "C31_wrap_write_partial",
    "C31_incr_read_partial",
    "C31_fixed_read_partial",
    "C31_wrap_read_partial",
    "C31_narrow_refuted",
    "C31_security_refuted",
    "C31_wrap_read_refuted"
   ],
   "note": "Writes: full-width INCR and WRAP, FIXED of any width; reads: INCR and FIXED of any width, WRAP when the block covers whole bus words or does not wrap. Refuted: narrow INCR writes lose bytes (FillData), security attribute sampled from arprot (l.1102), narrow wrapping reads use the unwrapped lane."
  },
  {
   "property": "C32",
   "status": "partial",
   "theorems": [
    "C32_slave_partial",
    "C32_slave_refuted",
    "C32_ace_refuted",
    "C32_roundtrip_partial",
    "C32_code",
    "C32_stale_refuted"
   ],
   "note": "Master-side helpers and slave-side codes. Refuted: stale exclusive flag; command/burst/byte-enable errors and incomplete status become OKAY on the slave side; on ACE read ports RRESP[1:0] never changes."
  },
  {
   "property": "C33",
   "status": "partial",
   "theorems": [
    "C33_order_partial",
    "C33_page_partial",
    "C33_once_partial",
    "C33_progress_partial",
    "C33_barrier_refuted",
    "C33_write_responses_partial",
    "C33_read_responses_partial"
   ],
   "note": "Master: responses matched to the oldest of their id. Slave: issue and answer order per id, page order, at most one answer, at most 16 in flight, no deadlock; AXI, and ACE without barriers; reset and signal timing not modelled. Refuted with ACE barriers: a transaction is issued and answered twice."
  },
  {
   "property": "C34",
   "status": "partial",
   "theorems": [
    "C34_wires_follow_posted",
    "C34_wires_follow_partial",
    "C34_lost_update_refuted"
   ],
   "note": "Full for posted or unacknowledged updates; with acknowledged updates a change while the sender waits is lost for good (refuted), otherwise proved."
  },
  {
   "property": "C35",
   "status": "partial",
   "theorems": [
    "C35_time_monotone_partial",
    "C35_account_reaches",
    "C35_repeated_sync_reaches",
    "C35_time_backwards_refuted",
    "C35_sync_short_refuted"
   ],
   "note": "Monotone while local offsets stay within the quantum; time runs backwards otherwise (refuted); one sync reaches at most the end of the quantum, repeated ones reach the peer's time."
  },
  {
   "property": "C36",
   "status": "partial",
   "theorems": [
    "C36_ats_timestamp_refuted"
   ],
   "note": "Refuted: the ATS branch of rp_decode_payload does not byte-swap the timestamp and returns used = 0."
  },
  {
   "property": "C37",
   "status": "partial",
   "theorems": [
    "C37_io_access_refuted",
    "C37_attributes_partial"
   ],
   "note": "Refuted for IO access; the other attributes arrive."
  },
  {
   "property": "C38",
   "status": "partial",
   "theorems": [
    "C38_posted_write_partial",
    "C38_posted_status_refuted"
   ],
   "note": "The write is performed; the status is left as it was (refuted)."
  },
  {
   "property": "C39",
   "status": "partial",
   "theorems": [
    "C39_ignore_desync_refuted",
    "C39_byte_enable_desync_refuted"
   ],
   "note": "Refuted twice: TLM_IGNORE_COMMAND announces data it does not send; byte enables to an old-layout peer are sent but not counted. C08/C03 give the positive part."
  },
  {
   "property": "C40",
   "status": "partial",
   "theorems": [
    "C40_expanded_still_wrapping_refuted"
   ],
   "note": "Refuted: the forwarded payloads keep the wrap attribute, and a second expander wraps them again."
  },
  {
   "property": "C41",
   "status": "partial",
   "theorems": [
    "C41_success_not_visible_refuted"
   ],
   "note": "Refuted: set_exclusive_handled() is called with its default argument, false, so success and failure return identical payloads."
  },
  {
   "property": "C42",
   "status": "partial",
   "theorems": [
    "C42_dmi_partial",
    "C42_dmi_whole_region_refuted",
    "C42_dmi_shared_socket_refuted"
   ],
   "note": "Proved for grants strictly below the region's last byte with one region per socket. Refuted: a grant of a whole region fails an assertion; with two regions on one socket the other region's base is added."
  },
  {
   "property": "C43",
   "status": "partial",
   "theorems": [
    "C43_debug_partial",
    "C43_debug_count_refuted"
   ],
   "note": "Delivery proved; refuted: the returned count is always zero."
  },
  {
   "property": "C44",
   "status": "proved",
   "theorems": [
    "C44_reset"
   ],
   "note": ""
  },
  {
   "property": "C45",
   "status": "partial",
   "theorems": [
    "C45_byte_enables_refuted",
    "C45_ignore_command_refuted"
   ],
   "note": "Refuted twice."
  },
  {
   "property": "C46",
   "status": "partial",
   "theorems": [
    "C46_errors_refuted",
    "C46_register_range_refuted",
    "C46_bad_accesses_partial"
   ],
   "note": "Refuted: errors leave no trace and stack contents are stored; register index is not checked. Proved: malformed accesses are refused without effect."
  },
  {
   "property": "C47",
   "status": "partial",
   "theorems": [
    "C47_incr_write_partial",
    "C47_fixed_write_partial",
    "C47_wrap_write_partial",
    "C47_incr_read",
    "C47_fixed_read",
    "C47_wrap_read",
    "C47_narrow_refuted"
   ],
   "note": "Full-width INCR and WRAP writes, FIXED writes; reads of any width. Refuted for narrow INCR writes."
  },
  {
   "property": "C48",
   "status": "proved",
   "theorems": [
    "C48_no_deadlock"
   ],
   "note": ""
  },
  {
   "property": "C49",
   "status": "partial",
   "theorems": [
    "C49_hit_refuted"
   ],
   "note": "Refuted: only an exclusive load that misses sets the monitor, while a hit is answered EXOKAY too. The Example of C28 shows a pair that succeeds."
  },
  {
   "property": "C50",
   "status": "proved",
   "theorems": [
    "C50_mii_transparent",
    "C50_mii_any_preamble"
   ],
   "note": ""
  },
  {
   "property": "C51",
   "status": "proved",
   "theorems": [
    "C51_xgmii_transparent"
   ],
   "note": ""
  },
  {
   "property": "C52",
   "status": "partial",
   "theorems": [
    "C52_xgmii_1g_partial",
    "C52_xgmii_runt_refuted",
    "C52_xgmii_10g_refuted",
    "C52_mii_refuted"
   ],
   "note": "Partial: xgmii2tlm in 1G mode never leaves its buffer. Refuted: a frame over 8 KiB overruns the buffer of mii2tlm and of xgmii2tlm in 10G mode; a frame with fewer than 4 bytes is passed on with length 2^32-4 or so in both XGMII modes."
  },
  {
   "property": "C53",
   "status": "proved",
   "theorems": [
    "C53_axis_transparent",
    "C53_axis_all_delivered"
   ],
   "note": ""
  },
  {
   "property": "C54",
   "status": "partial",
   "theorems": [
    "C54_axis_boundary_refuted",
    "C54_axis_boundary_bytes_refuted",
    "C54_axis_waiting_target_refuted",
    "C54_axis_empty_refuted"
   ],
   "note": "Refuted: when the 4096 byte boundary falls inside a beat the rest of the beat and tlast are read after the sender has moved on (bytes lost or doubled, end of packet lost); a target that waits loses the packets sent meanwhile; an empty end-of-packet transaction right after 4096 bytes is forgotten."
  },
  {
   "property": "C55",
   "status": "proved",
   "theorems": [
    "C55_wb_link",
    "C55_wb_transparent"
   ],
   "note": ""
  },
  {
   "property": "C56",
   "status": "partial",
   "theorems": [
    "C56_wb_short_write_refuted",
    "C56_wb_empty_write_refuted",
    "C56_wb_unaligned_refuted",
    "C56_wb_overrun_refuted",
    "C56_wb_error_refuted",
    "C56_wb_attributes_refuted"
   ],
   "note": "Refuted: a write shorter than the bus clears the rest of the word (byte enables attached with length zero), an empty write clears a word, unaligned accesses hit the wrong bytes, a length above the bus width that is no multiple of it overruns the data buffer, target errors are answered OK, byte enables, streaming width and IGNORE are not looked at."
  },
  {
   "property": "C57",
   "status": "proved",
   "theorems": [
    "C57_native_memory",
    "C57_native_dmi"
   ],
   "note": ""
  },
  {
   "property": "C58",
   "status": "partial",
   "theorems": [
    "C58_native_wrap_refuted",
    "C58_native_unchecked_refuted",
    "C58_native_ignore_refuted"
   ],
   "note": "Refuted: the range check wraps around at 2^64; with size 0 nothing is checked; IGNORE is carried out as a write."
  },
  {
   "property": "C59",
   "status": "proved",
   "theorems": [
    "C59_apb_transfers",
    "C59_apb_refused"
   ],
   "note": ""
  },
  {
   "property": "C60",
   "status": "partial",
   "theorems": [
    "C60_apb_delay_refuted",
    "C60_apb_concurrent_refuted",
    "C60_apb_ignore_refuted"
   ],
   "note": "Refuted: a nonzero delay prolongs the setup phase; of two concurrent calls one is lost and answered OK; IGNORE causes a read transfer."
  },
  {
   "property": "C61",
   "status": "proved",
   "theorems": [
    "C61_lite_single",
    "C61_lite_write",
    "C61_lite_read",
    "C61_lite_aligned"
   ],
   "note": "Bus modelled per transaction (a mutex allows one at a time); handshakes, AxPROT, reset and delays not modelled. C61_lite_single covers a memory refusing whole words; data of a refused read is not determined."
  },
  {
   "property": "C62",
   "status": "partial",
   "theorems": [
    "C62_lite_write_truncated_refuted",
    "C62_lite_streaming_refuted",
    "C62_lite_read_hangs_refuted",
    "C62_lite_errors_lost_refuted",
    "C62_lite_ignore_writes_refuted",
    "C62_lite_zero_width_refuted"
   ],
   "note": "Refuted: without the aligner a crossing or streaming write is cut with OK, a streaming read returns the wrong bytes, a crossing read never returns; burst, command and byte-enable errors come back OK; IGNORE writes; streaming width 0 asserts or divides by zero."
  },
  {
   "property": "C63",
   "status": "partial",
   "theorems": [
    "C63_request_packet",
    "C63_write",
    "C63_read_request",
    "C63_completion_packet",
    "C63_unaligned_refuted",
    "C63_short_refuted",
    "C63_byte_enable_refuted",
    "C63_odd_length_refuted",
    "C63_stops_refuted",
    "C63_lower_address_refuted"
   ],
   "note": "Proved for aligned whole words without byte enables. Refuted: unaligned, short, odd-length and byte-enabled writes, empty or too long ones, the lower address field."
  },
  {
   "property": "C64",
   "status": "partial",
   "theorems": [
    "C64_read_partial",
    "C64_read_memory_partial",
    "C64_long_read_refuted",
    "C64_swapped_header_refuted",
    "C64_crossing_refuted",
    "C64_error_refuted"
   ],
   "note": "Proved for a read inside one word when the peer restores the request buffer. Refuted (for all such reads): more than one word; a buffer left swapped. Refuted by example: crossing a word, an error at the target."
  },
  {
   "property": "C65",
   "status": "partial",
   "theorems": [
    "C65_request_packet",
    "C65_completions",
    "C65_other_completion",
    "C65_status_refuted",
    "C65_crossing_refuted",
    "C65_long_refuted"
   ],
   "note": "Proved for accesses inside one word, with matching and with foreign completions. Refuted: completion status ignored, accesses crossing a word, more than four bytes."
  },
  {
   "property": "C66",
   "status": "partial",
   "theorems": [
    "C66_credit_rule",
    "C66_reset_refuted"
   ],
   "note": "Credit rule proved for all executions without reset. Refuted after a reset: the credit counters are not reset, so a credit on the wire at that moment is lost and a later deactivation never reaches Stop."
  },
  {
   "property": "C67",
   "status": "partial",
   "theorems": [
    "C67_control_word",
    "C67_control_word_refuted",
    "C67_receiver",
    "C67_delivery",
    "C67_progress",
    "C67_reset_refuted"
   ],
   "note": "Delivery, progress (with a bound) and reassembly of arbitrarily packed flits proved. Refuted: a reset after the last flit was sent answers OK although the packet is lost; the control word encoder shifts in 32 bits, so it cannot write more than a few pointers (the bridge itself writes one packet per flit)."
  },
  {
   "property": "C68",
   "status": "partial",
   "theorems": [
    "C68_receiver",
    "C68_sender",
    "C68_round_trip",
    "C68_over_link",
    "C68_address_refuted",
    "C68_small_write_refuted",
    "C68_odd_write_refuted",
    "C68_lost_attributes_refuted",
    "C68_misc_overlap_refuted",
    "C68_payload_refuted"
   ],
   "note": "Proved: receiver for any list of well-formed messages of all classes with all extensions; sender layout, round trip and delivery over the CXS link for all sendable messages (data of whole words up to 64 bytes, byte enables for 16 bytes and more, payload up to 30 bytes). Refuted: addresses with bits 39:32 or from 2^52 on (all of them), partial writes of 8 bytes, odd lengths, lost attributes, overlapping Misc fields, full payloads. Reads arrive with the ignore command."
  },
  {
   "property": "C69",
   "status": "partial",
   "theorems": [
    "C69_returns",
    "C69_zero_length_refuted",
    "C69_request_chain_refuted",
    "C69_snoop_chain_refuted"
   ],
   "note": "Proved: the receiver returns unless it meets a message with length 0. Refuted: length 0 loops for ever; chained requests and snoops."
  },
  {
   "property": "C70",
   "status": "partial",
   "theorems": [
    "C70_total",
    "C70_content",
    "C70_state",
    "C70_data",
    "C70_told_partial",
    "C70_fwdstate_partial",
    "C70_told_refuted",
    "C70_fwdstate_refuted"
   ],
   "note": "Proved for all snoops and lines: totality, contents, state allowed, dirty data kept or passed, PassDirty only if dirty, partial data. Refuted: Resp of SnpClean/SnpShared/SnpNotSharedDirty on Unique Dirty (line stays dirty), FwdState of SnpUniqueFwd on a dirty line; proved for all other cases."
  },
  {
   "property": "C71",
   "status": "partial",
   "theorems": [
    "C71_coherent_partial",
    "C71_sequential_partial",
    "C71_default_refuted",
    "C71_forward_refuted",
    "C71_read_once_refuted",
    "C71_sparse_store_refuted",
    "C71_partial_line_refuted",
    "C71_upgrade_race_refuted",
    "C71_window_refuted"
   ],
   "note": "Proved for all interleavings under the stated conditions, and for all non-overlapping histories without direct cache transfer. Refuted outside: default configuration (DCT, direct connection), forwarding of dirty lines, ReadOnceCI/MI forwarding, 64-byte stores with disabled bytes, partial lines, CleanUnique race, window after MakeUnique. Exclusives, atomics, cache maintenance, non-shareable regions and CCIX ports are not modelled."
  },
  {
   "property": "C72",
   "status": "partial",
   "theorems": [
    "C72_shared_partial",
    "C72_memory_partial",
    "C72_one_owner_refuted"
   ],
   "note": "Proved under the conditions of C71: shared marks, identical bytes, memory up to date. Refuted: two dirty owners after SnpShared of a Unique Dirty line."
  },
  {
   "property": "C73",
   "status": "partial",
   "theorems": [
    "C73_served_partial",
    "C73_sequential_partial",
    "C73_no_deadlock_partial",
    "C73_write_unique_refuted",
    "C73_read_once_refuted"
   ],
   "note": "Proved under the conditions of C71: no assertion failure, complete answers, some step always possible (not that a fixed number of steps is enough). Refuted: WriteUnique across a line, ReadOnce from the slave node without flit bridges."
  },
  {
   "property": "C74",
   "status": "partial",
   "theorems": [
    "C74_delivery_partial",
    "C74_progress_partial",
    "C74_tolerates",
    "C74_long_refuted",
    "C74_bus_error_refuted",
    "C74_leftover_refuted"
   ],
   "note": "Proved for descriptors up to 128 KiB without bus errors. Refuted: longer data overruns the buffer of dma_thread, a failed data read sends stale bytes and completes the descriptor, old status bits get into the reported length."
  },
  {
   "property": "C75",
   "status": "partial",
   "theorems": [
    "C75_receive_partial",
    "C75_overwrite_refuted",
    "C75_resume_refuted",
    "C75_long_refuted"
   ],
   "note": "Proved for fresh descriptors that are large enough. Refuted: the buffer of a completed descriptor is overwritten, a new tail does not resume a channel, an over-long packet fails an assertion."
  },
  {
   "property": "C76",
   "status": "partial",
   "theorems": [
    "C76_lines_partial",
    "C76_complete",
    "C76_acknowledge_first",
    "C76_reset_refuted",
    "C76_intr_write_refuted",
    "C76_ack_refuted"
   ],
   "note": "Proved for runs without a second reset, S2MM only if its interrupt register is not written. Refuted: a reset leaves the lines high, written bits of S2MM_INTR_STATUS hold the line, flags of channels 2 to 16 are not cleared by writing ones."
  },
  {
   "property": "C77",
   "status": "partial",
   "theorems": [
    "C77_start_partial",
    "C77_last_refuted",
    "C77_lost_refuted",
    "C77_order_refuted"
   ],
   "note": "Proved for channels 1 to 15 while the engine waits. Refuted: channel 16 never starts, a tail written while the engine looks at a later channel is lost, enables written after the tail do not wake the engine."
  },
  {
   "property": "C78",
   "status": "partial",
   "theorems": [
    "C78_exact",
    "C78_errors",
    "C78_depth_refuted"
   ],
   "note": "Exact for at most max_depth outstanding reads. Refuted beyond: the request is dropped silently and its correct answer is reported as an unknown id."
  },
  {
   "property": "C79",
   "status": "partial",
   "theorems": [
    "C79_accepts_partial",
    "C79_detects_partial",
    "C79_long_refuted",
    "C79_default_refuted",
    "C79_order_refuted"
   ],
   "note": "AXI4, both directions, for addresses whose lanes the checker gets right and at most max_depth outstanding writes. Refuted: a burst longer than AWLEN+1 is accepted; with the default configuration B error responses are never reported; the AXI3 data order check is never executed."
  },
  {
   "property": "C80",
   "status": "partial",
   "theorems": [
    "C80_strobe_partial",
    "C80_wrap_refuted",
    "C80_fixed_refuted",
    "C80_wide_refuted"
   ],
   "note": "Exact for transfers no wider than the bus: INCR with any address, FIXED aligned, WRAP covering whole bus words. Refuted for narrow WRAP bursts and unaligned FIXED bursts; AWSIZE wider than the bus stops the simulation."
  },
  {
   "property": "C81",
   "status": "proved",
   "theorems": [
    "C81_address"
   ],
   "note": "AxSIZE up to 7, AxLEN below 256. FIXED bursts longer than 16 and the reserved burst type are not part of the documented checks."
  },
  {
   "property": "C82",
   "status": "partial",
   "theorems": [
    "C82_exact_partial",
    "C82_axi3_refuted"
   ],
   "note": "Exact for AXI4 while responses come only for requests and counters stay below 2^31. Refuted for AXI3: the shared counters lose a response."
  },
  {
   "property": "C83",
   "status": "partial",
   "theorems": [
    "C83_accepts",
    "C83_detects_partial",
    "C83_back_to_back_refuted"
   ],
   "note": "Accepts: all traces. Detects: transfers whose valid rose after a cycle with valid low (or at the start). Refuted: a transfer directly behind another one is not checked."
  },
  {
   "property": "C84",
   "status": "partial",
   "theorems": [
    "C84_release",
    "C84_power_on_refuted"
   ],
   "note": "Exact after each falling edge of resetn. Refuted for the reset the simulation starts with (no falling edge)."
  },
  {
   "property": "C85",
   "status": "partial",
   "theorems": [
    "C85_moves_partial",
    "C85_ends",
    "C85_bytes_refuted",
    "C85_concurrent_refuted"
   ],
   "note": "C85_moves_partial: memories, indexes, contexts, status and interrupt after a doorbell whose thread ran to its end with no other thread on the queue, for counts that are multiples of 4; C85_ends: without bus errors it ends. Missing: counts that are no multiple of 4 (C85_bytes_refuted: up to 3 bytes too many are moved) and doorbells that overlap on one queue (C85_concurrent_refuted: a descriptor is counted as done and never processed). A producer index beyond the ring or a bus error stops the simulation. Host and card are separate memories."
  },
  {
   "property": "C86",
   "status": "partial",
   "theorems": [
    "C86_poll_partial",
    "C86_pidx_refuted",
    "C86_error_bit_refuted"
   ],
   "note": "C86_poll_partial for producer indexes below 4096. C86_pidx_refuted: the context keeps 12 bits, so entries of rings with more than 4096 descriptors carry a truncated index. C86_error_bit_refuted: the error-interrupt bit of a CPM4 entry is uninitialised stack."
  },
  {
   "property": "C87",
   "status": "partial",
   "theorems": [
    "C87_command",
    "C87_readback",
    "C87_index_refuted",
    "C87_door_refuted"
   ],
   "note": "C87_command and C87_readback in full for queues 0 and 1 and the supported selectors. C87_index_refuted: interrupt contexts are not range checked. C87_door_refuted: the doorbell of queue 2 is accepted and reads and writes outside the contexts."
  },
  {
   "property": "C88",
   "status": "partial",
   "theorems": [
    "C88_readonly",
    "C88_register_partial",
    "C88_short_refuted",
    "C88_range_refuted"
   ],
   "note": "C88_readonly in full; C88_register_partial for 4-byte accesses to plain registers. C88_short_refuted: a shorter write clears the other bytes and always lands on byte 0. C88_range_refuted: no range check."
  },
  {
   "property": "C89",
   "status": "partial",
   "theorems": [
    "C89_random_partial",
    "C89_init_partial",
    "C89_mask_refuted",
    "C89_zero_refuted",
    "C89_limits_partial",
    "C89_limits_refuted",
    "C89_width_refuted",
    "C89_init_refuted"
   ],
   "note": "Proved for windows that start on the mask's boundary, lengths of at least one byte and the default streaming width limits; rand_r is arbitrary. With other streaming width limits every width is within them or the whole length. Refuted otherwise, with the rand_r of the GNU C library: an unaligned window start gives an address below the window, minDataLen 0 leads to a division by zero, setMinStreamingWidthLen gives a width above the length, the largest streaming width is exceeded by the read after a write and when 0 is drawn, initMemory over 2^32 bytes writes nothing."
  },
  {
   "property": "C90",
   "status": "partial",
   "theorems": [
    "C90_list_partial",
    "C90_checks",
    "C90_region_refuted"
   ],
   "note": "The transactions are as listed provided the region of each transfer with attributes equals its qos; the reports are exact for every list and target. Refuted: setExtensions sets the region from the qos."
  },
  {
   "property": "C91",
   "status": "partial",
   "theorems": [
    "C91_batches_partial",
    "C91_ends",
    "C91_lost_refuted",
    "C91_callback_refuted"
   ],
   "note": "Proved when batches are added to a free thread or from a callback. Refuted: a second batch added before the first is taken replaces it; a batch added while another runs has its callback called for both."
  },
  {
   "property": "C92",
   "status": "partial",
   "theorems": [
    "C92_rsp",
    "C92_snp",
    "C92_checker_snp_refuted",
    "C92_req_partial",
    "C92_req_refuted",
    "C92_size_refuted",
    "C92_dat_partial",
    "C92_overread_refuted",
    "C92_overrun_refuted",
    "C92_beats_refuted",
    "C92_rsvdc_refuted",
    "C92_default_refuted"
   ],
   "note": "Responses: proved at every node width up to 16, for the bridge and the checker. Snoops: proved for the bridge at every address width up to 61. Requests: proved for address and RSVDC widths below 31 and lengths that are powers of two up to 64. Data: proved for one beat, data check and RSVDC widths below 31, a buffer with a readable byte after the data, and 8 bits after the data in the flit. Refuted: the default widths shift by 32, 44 and 64; the checker's snoop parser shifts an int by the address width; other lengths are sent as size 0; SetData reads data[len] and may write past the flit; a second beat fails assert(m_pos == 0); the bridge reads RSVDC as a byte."
  },
  {
   "property": "C93",
   "status": "partial",
   "theorems": [
    "C93_credits",
    "C93_delivery_partial",
    "C93_progress",
    "C93_deactivates",
    "C93_return_refuted",
    "C93_reset_refuted",
    "C93_reset_pending_refuted"
   ],
   "note": "Credits, progress and deactivation proved for all executions without reset; delivery proved for the packets. Refuted: returned credits (all-zero flits) are handed on as packets; a credit on the wire at a reset is lost and the next deactivation never ends; a reset with a packet waiting deletes an object on its caller's stack."
  },
  {
   "property": "C94",
   "status": "partial",
   "theorems": [
    "C94_start",
    "C94_stop",
    "C94_settles_refuted"
   ],
   "note": "Start and stop proved. Refuted: after a stop soon after the start, taken back again, the two sides pass the deactivation on to each other for ever and are never in Run at the same time."
  },
  {
   "property": "C95",
   "status": "partial",
   "theorems": [
    "C95_responses",
    "C95_handshakes",
    "C95_conform_partial",
    "C95_early_data_refuted",
    "C95_early_answer_refuted",
    "C95_unasked_refuted",
    "C95_stable_partial",
    "C95_accepts",
    "C95_default",
    "C95_enable_all_refuted",
    "C95_switches",
    "C95_handshake_setter_refuted"
   ],
   "note": "Responses, handshakes, stable signals and switches proved as far as stated. Refuted: data before an address, an answer before its request, unasked answers, enable_all_checks leaves the response check as it is, the setter of the handshake check switches the response check on."
  },
  {
   "property": "C96",
   "status": "partial",
   "theorems": [
    "C96_sends_partial",
    "C96_runt_refuted",
    "C96_disable_refuted",
    "C96_reset_refuted",
    "C96_overflow_refuted"
   ],
   "note": "Packets of 14 to 65532 bytes are proved to leave once, whole, in order and sealed, over every interleaving that leaves the configuration alone. Refuted: the bytes of a packet that is too short, of one cut by disabling transmission and of one under way at a reset begin the next packet; a packet of 65533 to 65535 bytes has its frame check sequence written behind the buffer."
  },
  {
   "property": "C97",
   "status": "partial",
   "theorems": [
    "C97_statistics_partial",
    "C97_read",
    "C97_adds_up",
    "C97_read_tick_refuted",
    "C97_counter",
    "C97_write_refuted",
    "C97_saturate_refuted"
   ],
   "note": "What a tick shows is proved equal to the counts of the interval, for all counters, while no counter passes 2^48 and the configuration stays; consistency of the counts and reads are proved without conditions. Refuted: reading TICK also moves the registers, without ready; software can overwrite a statistic; a byte counter keeps its value instead of saturating."
  },
  {
   "property": "C98",
   "status": "partial",
   "theorems": [
    "C98_right",
    "C98_delivers_partial",
    "C98_inserted",
    "C98_delete_refuted",
    "C98_burst_refuted",
    "C98_short_refuted",
    "C98_width_refuted"
   ],
   "note": "Delivery in order, once, exactly of the good frames is proved while at most two frames wait, frames hold a header and transmission is in normal use. Refuted: the frame check sequence is never deleted; the third frame of a burst is lost and not counted; short frames are read out of bounds; the streaming width does not cover an inserted check sequence."
  },
  {
   "property": "C99",
   "status": "partial",
   "theorems": [
    "C99_store_load_partial",
    "C99_swap",
    "C99_compare",
    "C99_operations_refuted",
    "C99_constants_refuted",
    "C99_compare_extent_refuted"
   ],
   "note": "Proved for ADD, CLR, swap and compare in both byte orders. Refuted: EOR, SET, SMAX, SMIN, UMAX and UMIN leave the memory as it is (the constants are octal and decimal literals that three bits never match); with the library's constants AtomicLoad + EOR is a swap; a compare in the upper half of its window accesses bytes beyond the window and can stop the program."
  },
  {
   "property": "C100",
   "status": "partial",
   "theorems": [
    "C100_read_partial",
    "C100_read_refuted",
    "C100_write",
    "C100_data_id_refuted"
   ],
   "note": "Writes proved. Reads proved for windows at the start of a line; a window elsewhere in the line is a copy beyond the buffer (refuted). With the DataID of CHI for 32-byte packets (0 and 2) a write never completes (refuted)."
  },
  {
   "property": "C101",
   "status": "partial",
   "theorems": [
    "C101_answers",
    "C101_dbid",
    "C101_data",
    "C101_prefetch_refuted"
   ],
   "note": "Proved, with the refuted case that PrefetchTgt takes an identifier for ever."
  },
  {
   "property": "C102",
   "status": "partial",
   "theorems": [
    "C102_store_load_partial",
    "C102_swap",
    "C102_compare",
    "C102_invalidates_partial",
    "C102_endian_refuted",
    "C102_dirty_refuted",
    "C102_dirty_load_refuted",
    "C102_clean_refuted",
    "C102_unsnooped_refuted",
    "C102_own_refuted",
    "C102_packets_refuted"
   ],
   "note": "Proved for little-endian ADD and CLR, for AtomicSwap up to 32 bytes and AtomicCompare up to 16, with no other copy or shared clean ones. Refuted: the byte order is dropped; with a unique or dirty copy elsewhere the length becomes 64 (data lost, buffer overrun, the call hangs); only sub-opcode ADD snoops; the requester's own copy is never snooped; returned data in packets smaller than a line goes to the wrong lanes."
  },
  {
   "property": "C103",
   "status": "partial",
   "theorems": [
    "C103_store_partial",
    "C103_report",
    "C103_pair_partial",
    "C103_unaligned_refuted",
    "C103_displaced_refuted",
    "C103_hit_refuted",
    "C103_shared_refuted",
    "C103_reused_refuted"
   ],
   "note": "Proved for lines accessed from their first byte and not displaced; the report with a fresh payload; the pair on a miss that gets the line unique. Refuted: at other addresses a snoop does not close the monitor; a displaced line stays open; a load that hits never opens it; with a line got shared the store never succeeds and a load that misses reports failure, as no answer reaches the payload; a payload that says ExclusiveOkay already is reported as done."
  },
  {
   "property": "C104",
   "status": "partial",
   "theorems": [
    "C104_monitor_partial",
    "C104_others",
    "C104_load_refuted",
    "C104_failed",
    "C104_address_refuted",
    "C104_requester_refuted",
    "C104_plain_store_refuted"
   ],
   "note": "Proved with requesters told apart by LPID only and exclusive stores as the only stores. Refuted: exclusive loads never snoop and get no ExclusiveOkay; address and source are not looked at; other stores do not close the monitor."
  },
  {
   "property": "C105",
   "status": "partial",
   "theorems": [
    "C105_requests",
    "C105_data_partial",
    "C105_snoops_partial",
    "C105_once",
    "C105_progress_partial",
    "C105_grants",
    "C105_atomics_refuted",
    "C105_snoops_refuted",
    "C105_header_refuted"
   ],
   "note": "Request credits, places of messages and grants are proved without restriction. Data credits and progress without atomics (an atomic takes no data credit but gives one back: refuted). Snoop credits as long as each grant covers the waiting snoops (a waiting snoop goes on after any grant and the counter wraps: refuted). Snoop credits in message headers are read from the bits of the data credits (refuted)."
  },
  {
   "property": "C106",
   "status": "partial",
   "theorems": [
    "C106_filter",
    "C106_holders_partial",
    "C106_once_partial",
    "C106_waits_partial",
    "C106_two_agents_refuted",
    "C106_wrong_entry_refuted",
    "C106_again_refuted",
    "C106_no_agent_refuted"
   ],
   "note": "The snoop filter is proved without restriction. Whom to snoop, once each, and waiting for all answers are proved with one agent for each CCIX port. Refuted with two agents behind a port: both get one TxnID, the second answer fails an assertion, the requester is snooped too, and answers are entered in the requester's filter, so that a holder is missed. Also refuted: a CCIX agent that lost the line is snooped for ever; a port without an agent makes any answer fail. Left out: DVM, transfer from cache to cache, reuse of TxnIDs."
  },
  {
   "property": "C107",
   "status": "partial",
   "theorems": [
    "C107_complete_partial",
    "C107_rest_partial",
    "C107_message_partial",
    "C107_busy_refuted",
    "C107_alone_refuted",
    "C107_sender_refuted"
   ],
   "note": "Proved when no Complete arrives while the interconnect sends one, somebody else takes part, and masters have one Sync each under way; DVM messages for initiators that take part. Refuted otherwise: a Complete during the sending finds the finished tracker again (duplicates, the other initiator is never told, later an early Complete and a failing assertion); a Sync without other participants is never answered; an initiator that takes no DVM messages waits for one answer too few."
  },
  {
   "property": "C108",
   "status": "partial",
   "theorems": [
    "C108_write_partial",
    "C108_refuses",
    "C108_past_end_refuted",
    "C108_narrow_write_refuted",
    "C108_digest_partial",
    "C108_key_overlap_refuted",
    "C108_keys_hidden_partial",
    "C108_reset"
   ],
   "note": "Proved: 32-bit accesses, refusals, digests when the SA numbers are eight or more apart, independence of the answers from the keys unless a digest is asked for, reset. Refuted: the address 0x7D00 is accepted and leaves the register array; writes of fewer than four bytes overwrite the whole register; keys of neighbouring SAs overlap because the key memory is indexed by words."
  },
  {
   "property": "C109",
   "status": "partial",
   "theorems": [
    "C109_frame_partial",
    "C109_roundtrip_partial",
    "C109_suite256_refuted",
    "C109_suite_xpn128_refuted",
    "C109_an_refuted",
    "C109_short_length_refuted",
    "C109_offset50_refuted",
    "C109_offset30_short_refuted",
    "C109_sa_refuted",
    "C109_split_packet_refuted",
    "C109_bypass_refuted",
    "C109_decode_short_refuted"
   ],
   "note": "Proved: contents of the frame of the encoder and the round trip with the suite GCM_AES_128, association numbers 0 and 1, SA numbers below 2^19 and frames long enough for the offset. Refuted: 256-bit suites do not come back; suite 2, association numbers 2 and 3, offset 50 and SA numbers from 2^19 on are negative on their pins; the short length becomes 1; offset 30 with short frames reads beyond the buffer; byte_count is never updated, so that each transaction counts as a packet; bypass keeps the ICV; short bypassed frames at the decoder."
  },
  {
   "property": "C110",
   "status": "partial",
   "theorems": [
    "C110_write_partial",
    "C110_unaligned_refuted",
    "C110_crossing_refuted",
    "C110_read",
    "C110_descriptor",
    "C110_refused",
    "C110_beats",
    "C110_no_aligner_refuted",
    "C110_secure_refuted",
    "C110_qos_partial",
    "C110_qos_refuted"
   ],
   "note": "Proved: a write makes exactly the bytes asked for (all widths, offsets, lengths within the data memory, byte enables), unless the bridge takes AxSIZE from the length and the address is not a multiple of it; reads; descriptor; number of beats behind the aligner; QoS below 16. Refuted: unaligned accesses with a length that is a power of two (without the aligner); the reset without the aligner follows a null pointer; secure is put into AxPROT[1], which means non-secure; QoS above 15 spills into the region. Not modelled: the RTL itself, DMI copies, ownership and interrupts of the descriptor."
  },
  {
   "property": "C111",
   "status": "partial",
   "theorems": [
    "C111_settled",
    "C111_progress",
    "C111_no_ghosts",
    "C111_wakes",
    "C111_pulse_refuted"
   ],
   "note": "Proved: settled when asleep, progress, wake-up, no levels that were not there. Refuted: a pulse that ends before the level is read is not seen. Assumed of the hardware: flags set by changes, cleared by writing ones, irq high while a flag is set."
  },
  {
   "property": "C112",
   "status": "partial",
   "theorems": [
    "C112_write_partial",
    "C112_single_beat",
    "C112_single_read_refuted",
    "C112_read_data",
    "C112_read_length_partial",
    "C112_fixed_read_refuted",
    "C112_wrap_partial",
    "C112_wrap_refuted",
    "C112_responses"
   ],
   "note": "Proved: writes of type FIXED and INCR (all sizes, alignments and numbers of beats), data of reads, lengths of INCR and aligned FIXED reads, WRAP when the burst is at least as wide as the bus, responses. Refuted: a single narrow read reads to the end of the bus; unaligned FIXED reads are longer than the burst; WRAP bursts smaller than the bus take wrong lanes. Not modelled: wrap expander, memory manager mode, exclusive accesses, order of descriptors (process)."
  },
  {
   "property": "C113",
   "status": "partial",
   "theorems": [
    "C113_write",
    "C113_read",
    "C113_single",
    "C113_touches",
    "C113_refused",
    "C113_range_refuted",
    "C113_big_endian_refuted",
    "C113_dmi",
    "C113_dmi_refuted",
    "C113_buffers",
    "C113_unmap_refuted",
    "C113_seen",
    "C113_pulse",
    "C113_acked",
    "C113_long_refuted",
    "C113_once"
   ],
   "note": "Refuted: accesses beyond the mapping are made (l.277-279), DMI ignores the offset (l.304-306), only short transactions acknowledge (l.293), half is unmapped (l.104), big endian reads. The rest is proved; setup of the device and failing system calls are not modelled."
  },
  {
   "property": "C114",
   "status": "partial",
   "theorems": [
    "C114_books",
    "C114_process",
    "C114_held",
    "C114_all_at_once",
    "C114_sleep",
    "C114_thread",
    "C114_starts",
    "C114_forgotten_refuted",
    "C114_kept_refuted"
   ],
   "note": "Refuted: without the hardware's BUSY a descriptor can be handled and forgotten; finished descriptors stay until all 16 are held. The rest is proved; payloads of mode 1, waits and reset are not modelled."
  }
 ]
}