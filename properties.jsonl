{"id": "C01", "title": "Remote-port packets survive the wire", "statement": "A hello, read, write, interrupt, sync or ATS packet built by the encode API and delivered byte for byte to a peer decodes there to the same command, id, flags, device and payload fields that the sender passed (master ids up to 16 bits, see C02; ATS timestamps see C36), the data and byte enables are found where the accessors point, and exactly the packet's bytes are consumed from the stream.", "quantifier": "every value of every packet field (all 8/16/32/64-bit values), both bus-access layouts, every payload content", "why_tests_cant": "The field values range over about 2^400 combinations; unit tests pick a handful and miss byte-order, truncation and offset mistakes that only show for particular values.", "anchors": ["libremote-port/remote-port-proto.c: rp_encode_hdr, rp_encode_hello_caps, rp_encode_busaccess, rp_encode_interrupt, rp_encode_sync, rp_encode_ats_*, rp_decode_hdr, rp_decode_payload", "libremote-port/remote-port-proto.h: struct rp_pkt*"]}
{"id": "C02", "title": "64-bit master ids survive the extended bus-access layout", "statement": "When the extended layout is negotiated, the 64-bit master id given to the encoder is the master id the receiving peer sees.", "quantifier": "every 64-bit master id", "why_tests_cant": "Only ids above 16 bits behave differently; tests use small ids.", "anchors": ["libremote-port/remote-port-proto.c: rp_encode_busaccess (ext_base path), rp_decode_payload (master_id reassembly)"]}
{"id": "C03", "title": "Remote-port stream framing never loses synchronisation", "statement": "For any sequence of packets written back to back by conforming encoders, a receiver that repeatedly reads 20 header bytes and then exactly hdr.len further bytes recovers the same packets in the same order and ends exactly at the end of the stream.", "quantifier": "every finite sequence of packets of every kind, every data and byte-enable length", "why_tests_cant": "One miscounted length byte in one packet kind desynchronises every later packet; it needs the composition of all kinds, unbounded sequences.", "anchors": ["libremote-port/remote-port-proto.c: rp_encode_*", "libremote-port/remote-port-tlm.cc: rp_pkt_main, rp_process", "libremote-port/remote-port-tlm-memory-slave.cc: b_transport", "libremote-port/remote-port-tlm-memory-master.cc: cmd_read_null, cmd_write_null"]}
{"id": "C04", "title": "Blocking read returns exactly the next bytes of the stream", "statement": "rp_safe_read(fd, buf, n) returns n only with the next n bytes of the stream in buf, in order, whatever sizes the OS delivers and however often it is interrupted; it returns fewer only at end of file or on an error, and never consumes bytes it does not return in a successful call.", "quantifier": "every byte stream, every n, every OS schedule of partial reads, EINTR, EOF and errors", "why_tests_cant": "Partial reads and signals are schedules the OS picks; tests on loopback sockets see one schedule.", "anchors": ["libremote-port/safeio.c: rp_safe_read, rp_safe_write"]}
{"id": "C05", "title": "Blocking write delivers a prefix in order", "statement": "rp_safe_write sends bytes of the buffer in order without loss or duplication under any schedule of partial writes and interrupts; the returned count is the number of bytes sent; it returns n only if all n bytes were sent.", "quantifier": "every buffer, every OS schedule of partial writes, EINTR, EAGAIN and errors", "why_tests_cant": "Same as C04: the schedule space is unbounded.", "anchors": ["libremote-port/safeio.c: rp_safe_write"]}
{"id": "C06", "title": "Each remote-port requester gets its own response", "statement": "When several threads wait for responses, a response with id i is delivered to the thread that waits for id i and to no other, a slot is reused only after its waiter has consumed it, and no response overwrites one not yet consumed.", "quantifier": "every interleaving of requests, responses and completions, any number of threads, ids wrapping around", "why_tests_cant": "Depends on the interleaving of waiters and the arrival order of responses.", "anchors": ["libremote-port/remote-port-tlm.cc: response_lookup, response_wait, response_done, rp_process"]}
{"id": "C07", "title": "Capability negotiation", "statement": "After processing a hello capability list the peer record has exactly the capabilities of known kind that occur in the list, regardless of order, duplicates or unknown entries, in addition to those it had.", "quantifier": "every capability list", "why_tests_cant": "Lists are unbounded and order-sensitive code would pass tests with the usual order.", "anchors": ["libremote-port/remote-port-proto.c: rp_process_caps, rp_encode_hello_caps"]}
{"id": "C08", "title": "A remote memory access behaves like a local one", "statement": "A non-posted TLM read or write performed through a remote-port memory slave, the wire and the peer memory master has the same effect on the target, the same returned data and the same success/failure class as performing the access directly on the target; an access with byte enables is refused with a byte-enable error and no effect when the peer has not announced support for them.", "quantifier": "every address, length, data, both layouts in both directions, every target and target response, every receive buffer content", "why_tests_cant": "Requires composing encoder, framing, decoder and response path over unbounded data.", "anchors": ["libremote-port/remote-port-tlm-memory-slave.cc: b_transport", "libremote-port/remote-port-tlm-memory-master.cc: cmd_read_null, cmd_write_null, rp_bus_access"]}
{"id": "C09", "title": "Bus error classes survive the wire", "statement": "The response status the target produced is reported to the remote initiator as OK, address error or generic error, and no failure is ever reported as success.", "quantifier": "every TLM response status and every response attribute word", "why_tests_cant": "Attribute words are 64-bit; tests check one error.", "anchors": ["libremote-port/remote-port-proto.h: rp_get_busaccess_response, RP_RESP_*", "libremote-port/remote-port-tlm-memory-master.cc: rp_bus_access", "libremote-port/remote-port-tlm-memory-slave.cc: b_transport"]}
{"id": "C10", "title": "Aligner chunks tile the transaction", "statement": "The transactions the aligner issues downstream cover the original data range exactly once, in ascending order, with the address of each chunk equal to the original address plus its offset (modulo streaming width), and the byte-enable seen for each data byte is the one the initiator supplied for it.", "quantifier": "every address, length, bus width, maximum length, boundary, byte-enable pattern and streaming width accepted by the aligner", "why_tests_cant": "Chunking depends on arithmetic relations between five numbers; off-by-one errors show only at particular alignments.", "anchors": ["tlm-modules/tlm-aligner.h: b_transport"]}
{"id": "C11", "title": "Aligner output obeys its limits", "statement": "No issued chunk is longer than the configured maximum length, none crosses the configured address boundary, and with natural alignment each chunk is a power-of-two-aligned block.", "quantifier": "every configuration and transaction", "why_tests_cant": "Same as C10.", "anchors": ["tlm-modules/tlm-aligner.h: b_transport"]}
{"id": "C12", "title": "Aligner is transparent", "statement": "For every memory-like target, a transaction through the aligner leaves the same memory contents, returns the same data and reports success exactly when all chunks succeed; on the first failing chunk it stops and reports that error, later bytes being untouched.", "quantifier": "every transaction and every target that treats bytes independently, including targets that fail on some addresses", "why_tests_cant": "Composition over unbounded chunk sequences with arbitrary failures.", "anchors": ["tlm-modules/tlm-aligner.h: b_transport"]}
{"id": "C13", "title": "Splitter broadcasts", "statement": "A transaction into the splitter reaches every output exactly once with the same address, data and attributes, and the result is OK only if all outputs returned OK.", "quantifier": "every number of outputs and every combination of responses", "why_tests_cant": "Number of outputs and combinations are unbounded.", "anchors": ["tlm-modules/tlm-splitter.h: b_transport", "tlm-modules/wire-splitter.h"]}
{"id": "C14", "title": "Wrapping burst expansion", "statement": "A wrapping burst through the wrap expander touches exactly the bytes of the naturally aligned block containing the start address, and byte k of the burst goes to block address base + ((start - base + k) mod length).", "quantifier": "every start address and length, both expansion modes", "why_tests_cant": "Modular address arithmetic over all starts and lengths.", "anchors": ["tlm-modules/tlm-wrap-expander.h: b_transport"]}
{"id": "C15", "title": "Exclusive monitor", "statement": "An exclusive write is forwarded only if the same master performed an exclusive read of the same range and no write that overlaps the range has gone through the monitor since; otherwise memory is untouched.", "quantifier": "every history of exclusive and normal reads and writes by any number of masters", "why_tests_cant": "The condition quantifies over histories.", "anchors": ["tlm-modules/tlm-exmon.h: b_transport, monitor"]}
{"id": "C16", "title": "Interconnect routing", "statement": "An access whose address lies in exactly one mapped region is delivered to the target of that region at the region-relative (or absolute) address, and the initiator sees its own address unchanged afterwards; an address in no region gives an address error.", "quantifier": "every memory map, every address", "why_tests_cant": "Maps are arbitrary; region boundaries are measure-zero for random tests.", "anchors": ["soc/interconnect/iconnect.h: map_address, b_transport, memmap"]}
{"id": "C17", "title": "Register read-only bits never change by bus writes", "statement": "Writing any sequence of values to a register through the register API never changes bits declared read-only, and changes every plain read/write bit to the last value written.", "quantifier": "every register description, every write sequence", "why_tests_cant": "Masks and values are 2^32 combinations and sequences are unbounded.", "anchors": ["utils/regapi.h: reg_access, reg_b_transport"]}
{"id": "C18", "title": "Clear-on-read and write-one-to-clear registers", "statement": "A clear-on-read bit is returned by the read that clears it; a write-one-to-clear bit is cleared only by writing one to it.", "quantifier": "every register description and access sequence", "why_tests_cant": "Depends on mask/value combinations.", "anchors": ["utils/regapi.h: reg_access"]}
{"id": "C19", "title": "Bit-field helpers", "statement": "mask32/mask64 select exactly the requested bit range, and field extraction and insertion are mutually inverse and do not disturb neighbouring bits.", "quantifier": "every position, width and value", "why_tests_cant": "All widths including the full-word boundary; 2^64 values.", "anchors": ["utils/bitops.h", "utils/regapi.h: reg_deposit, reg_extract"]}
{"id": "C20", "title": "CRC-32 conforms and composes", "statement": "crc32(0, b, n) is the IEEE 802.3 reflected CRC of b, and computing it over any split of a buffer chunk by chunk gives the same result as over the whole buffer.", "quantifier": "every byte string and every split", "why_tests_cant": "Inputs are unbounded; a single wrong table entry shows only for inputs that index it.", "anchors": ["utils/crc32.h: crc32, crc32_table"]}
{"id": "C21", "title": "Copying transaction attributes preserves all of them", "statement": "Copying or cloning the generic attribute extension yields an extension with the same value of every attribute.", "quantifier": "every attribute assignment", "why_tests_cant": "One omitted attribute among two dozen is invisible unless that attribute is read back.", "anchors": ["tlm-extensions/genattr.h: copy_from, clone"]}
{"id": "C22", "title": "CHI transaction ids are unique while in use", "statement": "No two outstanding transactions hold the same id, a returned id can be handed out again, and an id request blocks (rather than failing) when all are in use.", "quantifier": "every history of requests and returns by any number of concurrent requesters", "why_tests_cant": "Depends on wake-up interleavings of several waiters.", "anchors": ["tlm-modules/private/chi/txnids.h: GetID, ReturnID"]}
{"id": "C23", "title": "CHI cache line fill tracking", "statement": "A cache line is reported as fully valid exactly when every byte has been written or filled since it was last emptied, and reads of valid bytes return the last written value.", "quantifier": "every sequence of partial writes and state changes", "why_tests_cant": "Sequences and byte-enable patterns unbounded.", "anchors": ["tlm-modules/private/chi/cacheline.h: CacheLine"]}
{"id": "C24", "title": "CDMA copies exactly the programmed bytes", "statement": "Starting a transfer of N bytes from source to destination copies exactly those N bytes for any N, touches nothing else, then sets idle and raises the completion interrupt if enabled.", "quantifier": "every source, destination, length and memory content", "why_tests_cant": "Chunk arithmetic (64-byte blocks) for all lengths.", "anchors": ["soc/dma/xilinx-cdma.h: do_dma_copy, dma_engine"]}
{"id": "C25", "title": "ACE caches: single writer", "statement": "At no time do two caches hold the same line when one of them holds it as unique, and at most one cache holds a line dirty.", "quantifier": "any number of caches, every sequence of loads, stores, evictions and maintenance operations by any master", "why_tests_cant": "Protocol state space is unbounded in caches, lines and history.", "anchors": ["tlm-modules/cache-ace.h", "tlm-modules/iconnect-ace.h"]}
{"id": "C26", "title": "ACE caches: loads see the latest store", "statement": "In the coherent system every load returns, byte for byte, the value of the most recent store to that byte by any master.", "quantifier": "any number of write-back caches, every sequence of loads and stores of any size and alignment", "why_tests_cant": "Unbounded histories; errors need specific state/alignment combinations.", "anchors": ["tlm-modules/cache-ace.h", "tlm-modules/iconnect-ace.h"]}
{"id": "C27", "title": "Overlapping coherent transactions are serialised", "statement": "Two snooping transactions whose address ranges overlap are never in progress at the same time, every transaction is started exactly once and in arrival order among overlapping ones, and none is lost.", "quantifier": "every arrival sequence and completion order", "why_tests_cant": "Interleavings of arrivals and completions.", "anchors": ["tlm-modules/iconnect-ace.h: OverlappingTxOrderer"]}
{"id": "C28", "title": "ACE point-of-serialisation exclusive monitor", "statement": "An exclusive store succeeds only if no other master has successfully stored to the monitored line since the matching exclusive load.", "quantifier": "every history of exclusive accesses by any number of masters", "why_tests_cant": "Quantifies over histories.", "anchors": ["tlm-modules/iconnect-ace.h: PosMonitor, SnoopEngine::handle_exclusive", "tlm-modules/cache-ace.h: MasterExclusiveMonitor"]}
{"id": "C29", "title": "AXI write bursts carry the TLM write", "statement": "The address, length, size and strobes driven for a TLM write describe exactly its enabled bytes at their addresses: decoding the beats per the AXI rules gives back the same (address, byte) set, with wlast on exactly the last beat and at most the maximum number of beats.", "quantifier": "every accepted address, length, bus width, burst width and byte-enable pattern; INCR, FIXED and WRAP", "why_tests_cant": "Lane arithmetic over all alignments and widths.", "anchors": ["tlm-bridges/tlm2axi-bridge.h: SetupNumBeats, prepare_wbeat, write_data_phase"]}
{"id": "C30", "title": "AXI read bursts return the TLM read", "statement": "The data returned for a TLM read through the AXI bridge is, byte for byte, what an AXI slave supplies for those addresses, and an error on any beat makes the transaction fail.", "quantifier": "every accepted transaction and slave behaviour", "why_tests_cant": "Same as C29; errors on individual beats are rarely tested.", "anchors": ["tlm-bridges/tlm2axi-bridge.h: read_resp_phase"]}
{"id": "C31", "title": "AXI slave side delivers bursts as TLM transactions", "statement": "An AXI write burst arriving at the AXI-to-TLM bridge produces one TLM write whose enabled bytes are exactly the strobed bytes at their AXI addresses, with the security attribute of the write channel; a read burst returns each byte on its lane.", "quantifier": "every address, length, size and strobe pattern; INCR, FIXED, WRAP; narrow and full-width", "why_tests_cant": "Lane arithmetic over all alignments and sizes.", "anchors": ["tlm-bridges/axi2tlm-bridge.h: Transaction, FillData, GetData, write_address_phase"]}
{"id": "C32", "title": "AXI response codes round trip", "statement": "Converting a TLM status to an AXI response and back preserves success, address-error and generic-error classes and the exclusive-success indication.", "quantifier": "every TLM status and exclusive flag", "why_tests_cant": "The exclusive flag path is not covered by tests.", "anchors": ["tlm-bridges/amba.h: tlm_gp_set_axi_resp, tlm_gp_get_axi_resp", "tlm-extensions/genattr.h: exclusive_handled"]}
{"id": "C33", "title": "Same-id AXI transactions complete in order", "statement": "Transactions with the same id are issued downstream and answered in arrival order, every accepted transaction is answered exactly once, and the number in flight never exceeds the configured maximum.", "quantifier": "every arrival sequence and every completion order of the downstream target", "why_tests_cant": "Interleavings.", "anchors": ["tlm-bridges/axi2tlm-bridge.h: RunTLMTransaction, GetFirstWithID, InList", "tlm-bridges/tlm2axi-bridge.h: LookupAxID"]}
{"id": "C34", "title": "Wire events reach the peer in order and with the right value", "statement": "Every change of an input wire is sent as an interrupt packet with its line number and new value, and the peer drives exactly that value on that line, in the order of the changes.", "quantifier": "every sequence of wire changes on any number of wires", "why_tests_cant": "Sequences and batching of events are unbounded.", "anchors": ["libremote-port/remote-port-tlm-wires.cc: wire_update, cmd_interrupt_null"]}
{"id": "C35", "title": "Remote time never runs backwards", "statement": "Applying peer timestamps never moves local time backwards and a quantum synchronisation brings local time to at least the time requested by the peer.", "quantifier": "every sequence of timestamps and local delays", "why_tests_cant": "Sequences of timestamps.", "anchors": ["libremote-port/remote-port-tlm.cc: account_time, rp_cmd_sync, sync"]}
{"id": "C36", "title": "ATS packet timestamps survive the wire", "statement": "The timestamp passed to rp_encode_ats_req / rp_encode_ats_inv is the timestamp the peer finds in the decoded packet, and decoding reports the fixed part as consumed.", "quantifier": "every 64-bit timestamp", "why_tests_cant": "Byte-order conversion errors are invisible for palindromic values such as 0, and nothing checks the value today.", "anchors": ["libremote-port/remote-port-proto.c: rp_encode_ats_common, rp_decode_payload"]}
{"id": "C37", "title": "Transaction attributes survive the wire", "statement": "The attributes a target sees for a remote access (posted, master id, end of packet, secure, IO access) are those the initiator set.", "quantifier": "every combination of attributes", "why_tests_cant": "A dropped attribute only shows with a target that looks at it.", "anchors": ["libremote-port/remote-port-tlm-memory-slave.cc: genattr_to_rpattr, b_transport", "libremote-port/remote-port-tlm-memory-master.cc: rp_bus_access"]}
{"id": "C38", "title": "Posted remote writes", "statement": "A posted write through remote-port is performed on the target with exactly its data, and the initiator sees an OK response.", "quantifier": "every write, every target", "why_tests_cant": "Tests rarely look at the status of posted writes.", "anchors": ["libremote-port/remote-port-tlm-memory-slave.cc: b_transport", "libremote-port/remote-port-tlm-memory-master.cc: cmd_write_null"]}
{"id": "C39", "title": "Every accepted access keeps the byte stream in step", "statement": "Whatever payload b_transport of the remote-port memory slave accepts, the number of bytes written equals the number announced in the packet header, so the next packet is found.", "quantifier": "every command, data length, byte-enable array and set of peer capabilities", "why_tests_cant": "Depends on combinations of capabilities and rarely used commands.", "anchors": ["libremote-port/remote-port-tlm-memory-slave.cc: b_transport", "libremote-port/remote-port-proto.c: rp_encode_busaccess"]}
{"id": "C40", "title": "Wrap-expanded payloads are plain", "statement": "Every payload that the wrap expander issues downstream in place of a wrapping burst is an ordinary incrementing payload: it no longer carries the wrap attribute, so a second expander (or any wrap-aware target) further down passes it on unchanged.", "quantifier": "for all wrapping bursts (any address, length, width) and all downstream targets", "why_tests_cant": "Tests place a single expander in front of a wrap-unaware memory and check the data; they never look at the attributes of the forwarded payload nor chain two expanders for all address/length combinations.", "anchors": ["tlm-modules/tlm-wrap-expander.h"]}
{"id": "C41", "title": "Exclusive write outcome is visible to the initiator", "statement": "After an exclusive write has passed the exclusive monitor, the initiator can tell from the returned payload (response status and the exclusive_handled attribute) whether the write was performed or was suppressed because the reservation had been lost.", "quantifier": "for all reservation states and all exclusive writes", "why_tests_cant": "It relates two executions (reservation held / lost) that must be distinguishable in their response; tests look at single runs with a fixed interleaving.", "anchors": ["tlm-modules/tlm-exclusive-monitor.h", "tlm-extensions/genattr.h"]}
{"id": "C42", "title": "DMI grants through the interconnect", "statement": "A direct-memory grant obtained through the interconnect covers, in the initiator's address space, exactly the addresses that ordinary accesses would route to the granted range of the same target.", "quantifier": "every memory map, every grant a target may return", "why_tests_cant": "Needs a grant that reaches the region boundary or several regions on one socket; a wrong base silently corrupts other devices.", "anchors": ["soc/interconnect/iconnect.h: get_direct_mem_ptr, unmap_offset"]}
{"id": "C43", "title": "Debug accesses through the interconnect", "statement": "A debug access is delivered like an ordinary access and returns the number of bytes the target transferred.", "quantifier": "every memory map, address and length", "why_tests_cant": "Debug transport is not used by the functional tests; the count is ignored by most callers.", "anchors": ["soc/interconnect/iconnect.h: transport_dbg"]}
{"id": "C44", "title": "Register reset", "statement": "Resetting a register block gives every described register its reset value and leaves every other register unchanged.", "quantifier": "every register description and state", "why_tests_cant": "Descriptions and register states are unbounded.", "anchors": ["utils/regapi.h: reg_reset_all"]}
{"id": "C45", "title": "Register writes honour the payload", "statement": "A register access with byte enables changes only enabled bytes or is refused, and a command that is neither read nor write leaves the register unchanged.", "quantifier": "every register description and payload", "why_tests_cant": "Drivers in tests always use full-word plain writes.", "anchors": ["utils/regapi.h: reg_b_transport"]}
{"id": "C46", "title": "CDMA reports what went wrong", "statement": "A transfer whose source or destination access fails is distinguishable from a successful one in the status register and stores nothing that was not read; register accesses that are malformed or outside the register block are refused without effect.", "quantifier": "every register access, every memory that refuses some addresses", "why_tests_cant": "Needs a failing target in the middle of a transfer and register offsets beyond the block.", "anchors": ["soc/dma/xilinx-cdma.h: do_dma_copy, b_transport"]}
{"id": "C47", "title": "The two AXI bridges back to back are transparent", "statement": "A TLM write sent through the TLM-to-AXI bridge and received by the AXI-to-TLM bridge arrives with exactly its enabled bytes at their addresses; a TLM read through both returns the target's memory content and keeps disabled bytes.", "quantifier": "every address, length, byte-enable pattern, streaming width, burst width up to the bus, linear, streaming and wrapping", "why_tests_cant": "The bridge tests run back-to-back pairs only on sampled lengths and alignments, and compare both sides with the same lane code.", "anchors": ["tlm-bridges/tlm2axi-bridge.h: Transaction, write_data_phase, read_resp_phase", "tlm-bridges/axi2tlm-bridge.h: Transaction, FillData, GetData"]}
{"id": "C48", "title": "The coherent interconnect never deadlocks", "statement": "As long as a request of some master has not been answered, some process of the caches or the interconnect can make progress.", "quantifier": "any number of masters, write-back and write-through caches, every sequence and interleaving of requests", "why_tests_cant": "A lost wake-up among waiting transactions shows only for particular overlaps and completion orders.", "anchors": ["tlm-modules/iconnect-ace.h: OverlappingTxOrderer, SnoopEngine", "tlm-modules/cache-ace.h"]}
{"id": "C49", "title": "An undisturbed pair of exclusive accesses succeeds", "statement": "An exclusive load answered EXOKAY followed by an exclusive store of the same master to the same bytes succeeds if no other master does anything in between.", "quantifier": "every state of the caches before the pair", "why_tests_cant": "Depends on what the cache happens to hold before the pair.", "anchors": ["tlm-modules/cache-ace.h: MasterExclusiveMonitor, handle_load, handle_store"]}
{"id": "C50", "title": "Packets cross the MII bridges unchanged", "statement": "A packet given to tlm2mii comes out of mii2tlm with the same bytes in the same order, followed by its CRC-32 frame check sequence when checksum generation is on, and nothing else comes out, whatever idle time lies between packets.", "quantifier": "all packet sequences, contents, idle gaps, with and without checksum, up to the receiver's 8 KiB", "why_tests_cant": "Contents, lengths and gaps are unbounded; a nibble order or preamble mistake can depend on data that looks like a preamble.", "anchors": ["tlm-bridges/tlm2mii-bridge.h: b_transport", "tlm-bridges/mii2tlm-bridge.h: rx_thread"]}
{"id": "C51", "title": "Packets cross the XGMII bridges unchanged", "statement": "A packet given to tlm2xgmii comes out of xgmii2tlm with the same bytes in the same order, in 10G and in 1G mode, whatever its length modulo the lane count and whatever idle time lies between packets.", "quantifier": "all packet sequences, contents and gaps, both modes, packets of at most 8187 bytes", "why_tests_cant": "The terminate character falls into a different lane for each length; only all lengths with all contents cover the framing.", "anchors": ["tlm-bridges/tlm2xgmii-bridge.h: b_transport", "tlm-bridges/xgmii2tlm-bridge.h: rx_thread"]}
{"id": "C52", "title": "PHY receivers survive any wire activity", "statement": "mii2tlm and xgmii2tlm never access memory outside of their 8 KiB packet buffer and never pass on a packet with an impossible length, whatever appears on the wires.", "quantifier": "all sequences of wire values", "why_tests_cant": "The peer may send anything, including packets longer than the buffer and truncated ones.", "anchors": ["tlm-bridges/mii2tlm-bridge.h: rx_thread", "tlm-bridges/xgmii2tlm-bridge.h: rx_thread"]}
{"id": "C53", "title": "AXI-Stream bridges preserve the byte and packet stream", "statement": "For transactions that fill their beats or end a packet, what axis2tlm passes on is at any time a prefix of the byte and end-of-packet stream given to tlm2axis; all of it is passed on eventually, except fewer than 4096 bytes of a packet that has not ended.", "quantifier": "all sequences of nonempty transactions, idle gaps, delays returned by the target, bus widths dividing 4096", "why_tests_cant": "Back-pressure can hit at any beat of any packet; the interleavings are unbounded.", "anchors": ["tlm-bridges/tlm2axis-bridge.h: b_transport", "tlm-bridges/axis2tlm-bridge.h: axis_thread, run_tlm"]}
{"id": "C54", "title": "AXI-Stream bridges cope with any transactions and targets", "statement": "The byte and packet stream is preserved for transactions of any length, with or without end of packet, and for targets that let time pass inside b_transport.", "quantifier": "all transaction sequences and targets", "why_tests_cant": "Needs a beat that straddles the internal 4096 byte boundary, or a target that waits.", "anchors": ["tlm-bridges/tlm2axis-bridge.h: b_transport", "tlm-bridges/axis2tlm-bridge.h: axis_thread, run_tlm"]}
{"id": "C55", "title": "Aligned word transfers cross the Wishbone bridges unchanged", "statement": "A read or write of whole, aligned bus words without byte enables, sent through tlm2wishbone and wishbone2tlm, has the same effect on a memory and returns the same data as if sent to the memory directly; every beat reaches the target exactly once, however long the target takes.", "quantifier": "all addresses, lengths, data, 32 and 64 bit buses, all target latencies per beat", "why_tests_cant": "Handshake timing per beat, addresses and lengths are unbounded.", "anchors": ["tlm-bridges/tlm2wishbone-bridge.h: b_transport", "tlm-bridges/wishbone2tlm-bridge.h: wb_thread"]}
{"id": "C56", "title": "Any transaction crosses the Wishbone bridges or is refused", "statement": "A transaction of any alignment, length, byte enables and command is either carried out exactly or answered with an error, and a target error is reported to the initiator.", "quantifier": "all payloads and targets", "why_tests_cant": "Existing tests use aligned words only; the damage is done next to the bytes a test looks at.", "anchors": ["tlm-bridges/tlm2wishbone-bridge.h: b_transport", "tlm-bridges/wishbone2tlm-bridge.h: wb_thread"]}
{"id": "C57", "title": "tlm2native behaves as a memory of its size", "statement": "An access inside the buffer reads or writes exactly the bytes the payload asks for, streaming width and byte enables included; an access outside is refused without touching anything; addresses offered for direct access lie inside the buffer.", "quantifier": "all payloads that end below 2^64, all buffer sizes", "why_tests_cant": "Combinations of streaming width, byte enable pattern and offset are unbounded.", "anchors": ["tlm-bridges/tlm2native-bridge.h: b_transport, get_direct_mem_ptr"]}
{"id": "C58", "title": "tlm2native never leaves its buffer", "statement": "No payload makes tlm2native access memory outside of its buffer, and a payload with the IGNORE command changes nothing.", "quantifier": "all payloads", "why_tests_cant": "Needs an access that wraps around the end of the 64 bit address space.", "anchors": ["tlm-bridges/tlm2native-bridge.h: b_transport"]}
{"id": "C59", "title": "Each 32 bit access is one APB transfer", "statement": "Calls made one after the other each cause exactly one APB transfer with their address, direction and data; a read returns what the slave drives in the cycle it is ready; everything but a 4 byte access without byte enables is refused without a transfer.", "quantifier": "all call sequences, wait states, slave outputs in other cycles", "why_tests_cant": "Wait states and outputs of the slave are arbitrary in every cycle.", "anchors": ["tlm-bridges/tlm2apb-bridge.h: b_transport"]}
{"id": "C60", "title": "APB transfers follow the protocol for any caller", "statement": "The setup phase lasts one cycle, concurrent calls are carried out one after the other, and a payload with the IGNORE command causes no transfer.", "quantifier": "all calls, delays and interleavings of callers", "why_tests_cant": "Needs two threads calling at the same time or a nonzero TLM delay.", "anchors": ["tlm-bridges/tlm2apb-bridge.h: b_transport"]}
{"id": "C61", "title": "AXI-Lite bridges act like the target accessed directly", "statement": "A transaction inside one bus word reaches the far side as one payload asking for exactly its enabled bytes, and its data and OK, address or generic error come back. With the built-in aligner every transaction with a nonzero streaming width returns OK with the effect and data of the same transaction on the memory.", "quantifier": "all addresses, lengths, streaming widths, byte enables, bus widths, memories and uninitialised buffer contents", "why_tests_cant": "Offsets, lengths, widths and byte-enable patterns multiply; uninitialised lanes change between runs.", "anchors": ["tlm-bridges/tlm2axilite-bridge.h: prepare_wbeat, read_resp_phase, validate", "tlm-bridges/axilite2tlm-bridge.h: Transaction"]}
{"id": "C62", "title": "The AXI-Lite bridges carry out or refuse every payload", "statement": "A transaction that crosses a bus word or streams is carried out in full or refused, every call returns, an error of the target is never reported as OK, and an IGNORE payload has no effect.", "quantifier": "all payloads and targets, with and without the aligner", "why_tests_cant": "Silent truncation is answered OK, and a lost error looks like success.", "anchors": ["tlm-bridges/tlm2axilite-bridge.h: b_transport, prepare_wbeat, read_resp_phase", "tlm-bridges/axilite2tlm-bridge.h: read_resp_phase, write_resp_phase"]}
{"id": "C63", "title": "Memory requests become PCIe packets and are performed as such", "statement": "A read or write of up to 4 KiB is sent as the memory request packet of the PCIe specification (format by address size, length, requester, tag, byte enables, address, data). The bridge at the other end performs exactly that access, and its completion carries requester, tag and data.", "quantifier": "all addresses, lengths, data, requesters, tags and targets", "why_tests_cant": "The header is packed from many fields over the full 64-bit address space; 1024 words encode as 0.", "anchors": ["tlm-bridges/tlm2tlp-bridge.h: TLP_Mem, TLP_Cpl, ProcessReadDMA, ProcessWriteDMA"]}
{"id": "C64", "title": "A memory read through two TLP bridges returns the target's bytes", "statement": "A read sent through one bridge and answered by another returns the same data and status as the read performed directly on the target.", "quantifier": "all addresses, lengths, targets and peers", "why_tests_cant": "Existing use reads registers of one word; other lengths and peers that leave the buffer swapped are not exercised.", "anchors": ["tlm-bridges/tlm2tlp-bridge.h: TLP_Mem, TLP_Cpl, CopyData, GetTLPData, b_transport"]}
{"id": "C65", "title": "Configuration requests address the right register and lanes", "statement": "A configuration access is sent to the bus, device, function and register of its ECAM address, with one enable bit per enabled byte and each byte in its lane. Its completion, recognised by requester and tag, returns the bytes of the register; an unsuccessful completion is reported as an error.", "quantifier": "all addresses, lengths, byte enables, data, requesters, tags and completers", "why_tests_cant": "Every bit of the address moves to a different place, and errors are only visible in a status field.", "anchors": ["tlm-bridges/tlm2tlp-bridge.h: TLP_Conf, TLP_Cpl, CopyData, b_transport"]}
{"id": "C66", "title": "The CXS link never overruns or leaks credits", "statement": "On the wires of a CXS link a flit or a returned credit always uses a credit granted at an earlier clock edge, never both in one cycle; at most 15 credits are outstanding; whenever the link is stopped all credits are home and the wires are quiet. This also holds after resets: a deactivated link always reaches Stop.", "quantifier": "all executions: any packets, any times of activation and deactivation, either order of the threads at an edge, all flit widths", "why_tests_cant": "Credit errors depend on the exact cycle at which activation, grants and flits meet, and show only as a link that stalls much later.", "anchors": ["tlm-bridges/private/ccix/txlink.h: tx_thread", "tlm-bridges/private/ccix/rxlink.h: rx_thread", "tlm-bridges/private/ccix/portstate.h: state_thread"]}
{"id": "C67", "title": "Packets cross the CXS link unchanged, in order and completely", "statement": "Packets handed to a CXS bridge arrive at the peer byte for byte and in order; a transaction is answered OK only if its packet was received; and while the link may run, every packet arrives within a bounded number of cycles, even when the link has to be brought down and up first. The receiver also reassembles flits in which a sender packs several packets.", "quantifier": "all sequences of packets of whole words, all interleavings with link deactivation, all flit widths and packings", "why_tests_cant": "Packet lengths, positions in the flit and link state changes combine without bound.", "anchors": ["tlm-bridges/private/ccix/pkts.h: CXSCntl, TLP::CreateFlit, TLPAssembler", "tlm-bridges/private/ccix/rxlink.h: processRxCntl, processRxData", "tlm-bridges/private/ccix/txlink.h: Process, tx_thread", "tlm-bridges/tlm2cxs-bridge.h"]}
{"id": "C68", "title": "CCIX messages arrive as they were sent", "statement": "A request, response, snoop request, credit exchange, NOP or miscellaneous message handed to a CCIX bridge is laid out in a TLP (compatible or optimised header) at the field positions of CCIX; the receiver of such a TLP, with any number of messages and with address, user and error extensions, produces for each message the same address, data, byte enables and attributes, the TLP credits going to the first one. Over a CXS link every message handed over arrives.", "quantifier": "all messages of all classes, all addresses, data, byte enables and extensions, any number of messages per TLP, both headers, all link executions", "why_tests_cant": "Every combination of extension words, data length and byte enables moves all later fields; tests try a few.", "anchors": ["tlm-bridges/private/ccix/pkts.h: MsgReq, MsgRsp, MsgSnpReq, MsgCrdEx, MsgNOP, MsgMiscCredited, PlaceBE, PlaceData, TLPHdr_opt, TLPHdr_comp, TLP, TLPFactory, ExtractCCIXMessages", "tlm-extensions/ccixattr.h"]}
{"id": "C69", "title": "The CCIX receiver copes with any TLP", "statement": "The receiver of CCIX TLPs returns for every TLP, reads nothing outside it, and continues chained requests and snoops at the next cache line with all of their data, processing the messages that follow them.", "quantifier": "all byte strings as TLPs, all sequences of chained messages", "why_tests_cant": "Malformed and chained messages are rare in tests, and the damage shows in messages that follow.", "anchors": ["tlm-bridges/private/ccix/pkts.h: TLP::ExtractCCIXMessages, ExtractCCIXMessage, SetupReqChain, SetupSnpReqChain, MsgReq::ExtractMessage, MsgSnpReq::ExtractMessage"]}
{"id": "C70", "title": "CHI caches answer snoops according to the protocol tables", "statement": "For every snoop and every line state a CHI cache answers, keeps address and bytes of the line, leaves the line in a state the snoop allows, keeps dirty data or passes it on with data and the PassDirty bit (never claiming it otherwise), sends whole-line data only of whole lines and partial data exactly of partial lines; Resp tells the state the line is left in, FwdState what the requester was told, and a cache that passed dirty data on is clean.", "quantifier": "all snoop opcodes, all line states and contents, with and without RetToSrc", "why_tests_cant": "There are thirteen opcodes times seven states with several response fields each; a wrong field shows only in a later transfer.", "anchors": ["tlm-modules/cache-chi.h: HandleSnp, HandleSnpOnce, HandleSnpClean, HandleSnpUnique, HandleSnpCleanShared, HandleSnpCleanInvalid, HandleSnpMakeInvalid, HandleSnp*Fwd", "tlm-modules/private/chi/txns-rn.h: SnpRespTxn", "tlm-modules/private/chi/cacheline.h"]}
{"id": "C71", "title": "CHI caches and home node keep memory coherent", "statement": "Every byte a load returns is the latest value stored to it, for any number of CHI caches sharing a home node and a memory, with allocating and non-allocating requests, evictions, upgrades and direct cache transfer.", "quantifier": "all numbers of caches, addresses, data, byte enables, cache sizes, random choices and interleavings", "why_tests_cant": "Coherence errors depend on the order of snoops, evictions and stores of several caches.", "anchors": ["tlm-modules/cache-chi.h: HandleLoad, HandleStore", "tlm-modules/private/chi/txns-rn.h: ReadTxn, DatalessTxn, WriteTxn", "tlm-modules/iconnect-chi.h: PointOfCoherence, TxnProcessor, SnoopFilter, ReqTxn", "tlm-modules/sn-chi.h"]}
{"id": "C72", "title": "CHI caches hold consistent copies with one owner", "statement": "Two CHI caches hold a line at the same time only if both have marked it shared, and then with identical bytes; at most one holds it dirty; and when none does the memory has the same bytes.", "quantifier": "all numbers of caches, lines and interleavings", "why_tests_cant": "The states of all caches have to be compared after every step of every schedule.", "anchors": ["tlm-modules/cache-chi.h", "tlm-modules/iconnect-chi.h: PointOfCoherence, SnoopFilter", "tlm-modules/private/chi/txns-rn.h"]}
{"id": "C73", "title": "CHI caches carry requests out completely and never stop", "statement": "A load or store to a CHI cache is answered only when all its bytes have been carried out in order, piece by piece at the addresses asked for; no assertion fails; and as long as a request is under way some component can make a step.", "quantifier": "all numbers of caches, requests, random choices and interleavings", "why_tests_cant": "Requests split at line borders and are retried after evictions; a lost piece or a stuck request needs a particular schedule.", "anchors": ["tlm-modules/cache-chi.h: HandleLoad, HandleStore, WriteUnique, InvalidateCacheLine", "tlm-modules/private/chi/txns-rn.h", "tlm-modules/iconnect-chi.h: TxnProcessor"]}
{"id": "C74", "title": "MCDMA transmits descriptor chains completely and in order", "statement": "Whatever registers are read, interrupts updated and other memory written meanwhile, each MM2S channel sends exactly the packets its descriptor chain describes, in order and with the bytes in memory; a descriptor is marked completed with its length only after its packet was sent, no other byte of the chains changes, and the engine waits only when every chain is done, after a bounded number of steps.", "quantifier": "all numbers of channels, chains, memory contents and interleavings of the engine with its environment", "why_tests_cant": "The engine can be interrupted at every bus access and several channels share it; chains and contents are unbounded.", "anchors": ["soc/dma/xilinx/mcdma/mcdma.cc: dma_thread", "soc/dma/xilinx/mcdma/mcdma.cc: push_stream", "soc/dma/xilinx/mcdma/mcdma.h: mcdma_bd_mm2s"]}
{"id": "C75", "title": "MCDMA stores received packets in the descriptors in order", "statement": "Packets for an S2MM channel fill its descriptors in order, one each: the data at the buffer, the descriptor marked completed with start, end and length; no other memory is written, descriptors of other channels and completed descriptors are left alone, and packets beyond the last descriptor are dropped.", "quantifier": "all channels, chains, packet sequences and memory contents", "why_tests_cant": "Any number of packets of any size meet any descriptor contents.", "anchors": ["soc/dma/xilinx/mcdma/mcdma.cc: stream_b_transport", "soc/dma/xilinx/mcdma/mcdma.h: mcdma_bd_s2mm"]}
{"id": "C76", "title": "MCDMA interrupt lines follow the enabled status flags", "statement": "Once updated, each interrupt line is high exactly when some channel has an enabled flag set, and the interrupt register says which channels; every completed descriptor sets its channel's flag, and acknowledging a flag clears it.", "quantifier": "all register writes, packets, engine steps, resets and orders of them", "why_tests_cant": "The line depends on the whole history of register accesses, completions and resets.", "anchors": ["soc/dma/xilinx/mcdma/mcdma.cc: update_irqs", "soc/dma/xilinx/mcdma/mcdma.cc: b_transport", "soc/dma/xilinx/mcdma/regs-mcdma.h"]}
{"id": "C77", "title": "Writing the tail descriptor starts an MCDMA channel", "statement": "After the usual register writes, ending with the tail descriptor, the engine works on exactly the chain given to the channel, whatever the registers held before and whenever the writes come.", "quantifier": "all channels, chains, register contents and points in time", "why_tests_cant": "The wake-up is an event without memory, so every moment at which the write can arrive matters.", "anchors": ["soc/dma/xilinx/mcdma/mcdma.cc: b_transport", "soc/dma/xilinx/mcdma/mcdma.cc: dma_thread"]}
{"id": "C78", "title": "The AXI checker reports exactly the wrong read answers", "statement": "With the response and read order checks on, the checker is silent exactly when, for every id, the read beats answer the requests of that id in order, with the announced number of beats, rlast on the last one, and no error response; any error response on R is reported in every configuration that checks responses.", "quantifier": "all traces of the read channels with any number of resets, ids, lengths and interleavings, up to the configured number of outstanding reads", "why_tests_cant": "The set of traces is infinite, and a checker that stays silent is indistinguishable from one that does not look.", "anchors": ["checkers/checker-axi.h: check_rd_tx", "checkers/config-axi.h: AXIPCConfig"]}
{"id": "C79", "title": "The AXI checker reports wrong write data and responses", "statement": "With the write checks on, AXI4 writes that obey the rules (data beats in address order, strobes on the lanes of the beat, wlast on beat AWLEN+1, one good response per completed write) are never reported, and a silent run obeys them.", "quantifier": "all traces of the write channels, data before or after its address, any ids, lengths and resets", "why_tests_cant": "False alarms and missed violations each need their own trace; the traces are unbounded.", "anchors": ["checkers/checker-axi.h: check_wr_tx", "docs/protocol-checker.txt"]}
{"id": "C80", "title": "The write strobe check follows the byte lanes of the beat", "statement": "For every beat of a burst the WSTRB check accepts exactly the strobes that the AXI byte lane rules allow for that beat.", "quantifier": "all bus widths, addresses, sizes, burst types, lengths, beats and strobes", "why_tests_cant": "Addresses times sizes times lengths times strobes cannot be enumerated.", "anchors": ["checkers/checker-axi.h: Transaction::CheckWstrb"]}
{"id": "C81", "title": "The address and length checks are the AXI rules", "statement": "The address check and the length check accept exactly the INCR bursts that stay within a 4 KiB page and the WRAP bursts that are aligned and 2, 4, 8 or 16 beats long.", "quantifier": "all addresses, burst types, sizes and lengths", "why_tests_cant": "The page rule speaks about every byte of every beat of all 2^64 addresses.", "anchors": ["checkers/checker-axi.h: check_addr_alignment", "checkers/checker-axi.h: check_axlen"]}
{"id": "C82", "title": "The handshake check reports exactly withdrawn valids and hangs", "statement": "The handshake check is silent exactly when no channel withdraws valid before ready, no valid waits for ready for the configured number of cycles, and no channel that owes a transfer leaves valid low for that long.", "quantifier": "all AXI4 traces with any number of resets and every time limit", "why_tests_cant": "Hangs are arbitrarily long and what is owed depends on the whole history.", "anchors": ["checkers/checker-utils.h: axi_handshakes_checker"]}
{"id": "C83", "title": "The stability check reports signals that change while waiting for ready", "statement": "Traffic whose signals stay unchanged while valid waits for ready is never reported, and in a silent run every transfer kept its signals until it was taken.", "quantifier": "all channels, payloads and traces, resets included", "why_tests_cant": "Every change in every cycle of every stall would have to be tried.", "anchors": ["checkers/checker-utils.h: monitor_xchannel_stable"]}
{"id": "C84", "title": "The reset check reports exactly the valids high at the end of reset", "statement": "At the first clock edge after a reset is released the reset check reports exactly the channels whose valid is high, and it reports nothing at any other time.", "quantifier": "all traces before, during and after the reset", "why_tests_cant": "The report depends on the one edge after a reset of any length after any history.", "anchors": ["checkers/checker-utils.h: axi_reset_checker", "tlm-bridges/amba.h: axi_common::wait_for_reset_release"]}
{"id": "C85", "title": "A QDMA doorbell moves exactly the posted descriptors", "statement": "Writing a producer index to a memory-mapped queue's doorbell moves, for each descriptor from the consumer index up to the new producer index around the ring and in that order, exactly byte_count bytes from its source to its destination and changes no other byte; afterwards the consumer index equals the producer index, the status descriptor (when enabled) holds both indexes with its other bits kept, at most one interrupt is raised, and nothing is done when no descriptor is outstanding. Without bus errors the doorbell always comes to an end.", "quantifier": "both flavours, both directions, every ring size, descriptor size, base, pair of indexes, contents of both memories (counts multiples of 4, no other access to the queue meanwhile)", "why_tests_cant": "The result depends on the wrap of the ring, on descriptors that copy over later descriptors, and on 64-bit address wrap; tests run a few short rings from index 0.", "anchors": ["soc/pci/xilinx/qdma.h: run_mm_dma, do_mm_dma, fetch_descriptor, descriptor_writeback, config_bar_b_transport", "soc/pci/xilinx/qdma-ctx.inc: sw_ctx"]}
{"id": "C86", "title": "A driver that polls the colour finds every QDMA interrupt entry once, in order", "statement": "Starting from a cleared interrupt ring with colour 1, a driver that looks at slot k mod size for the colour of its k-th round finds the k-th entry with its queue, direction, consumer and producer index as soon as and only when the device has written it, as long as it is not a whole ring behind.", "quantifier": "both flavours, every page size, any number of entries and wraps, any other activity between entries that leaves the ring alone", "why_tests_cant": "The colour flips once per 512 to 4096 entries; a mistake in the wrap shows only after thousands of interrupts.", "anchors": ["soc/pci/xilinx/qdma.h: run_mm_dma, write_irq_ring_entry", "soc/pci/xilinx/qdma-ctx.inc: intr_ctx, intr_ring_entry"]}
{"id": "C87", "title": "QDMA context commands touch exactly the addressed context", "statement": "A clear, write, read or invalidate command changes only the addressed queue's selected context (and, for a read, the eight data registers), leaves the busy bit clear, resets the interrupt ring index exactly when an invalid interrupt context becomes valid, and what was written is read back whatever other registers and contexts were accessed in between. Every command word is answered without an access outside the contexts.", "quantifier": "every queue, selector, command, context contents and sequence of other accesses", "why_tests_cant": "There are 2 x 15 contexts of 256 bits; aliasing between them shows only for particular pairs of accesses.", "anchors": ["soc/pci/xilinx/qdma.h: handle_ctxt_cmd, handle_irq_ctxt_cmd, config_bar_b_transport"]}
{"id": "C88", "title": "QDMA configuration registers", "statement": "After a reset the identification and capability registers read their fixed values whatever is written or transferred; any other plain register reads back the last value written and no write changes another register; partial writes change only the bytes written; accesses beyond the register file are refused.", "quantifier": "every register, value and sequence of resets, configuration writes and transfer steps", "why_tests_cant": "There are 98304 registers and any sequence of writes may alias them.", "anchors": ["soc/pci/xilinx/qdma.h: config_bar_b_transport, reset"]}
{"id": "C89", "title": "Random traffic stays in its window and reads back what it writes", "statement": "RandomTraffic issues exactly the number of transfers asked for; each lies in [minAddress, maxAddress), on the boundary asked for by the mask, is at least minDataLen long unless the window or maxDataLen ends first, has at most maxByteEnablesLen byte enables and a streaming width between 1 and its length; each write carries one byte per address and is followed by a read of the same range without byte enables. With initMemory the first transfer writes zeros over the whole window.", "quantifier": "every window, mask, length limits, number of transfers and every sequence of values rand_r can return", "why_tests_cant": "The sequence of random values is unbounded and a test run sees one seed.", "anchors": ["traffic-generators/random-traffic.h: genAddrLen, getCmd, getData, getByteEnable, next", "traffic-generators/tg-tlm.h: generate"]}
{"id": "C90", "title": "The traffic generator issues the listed transfers and reports exactly the unexpected answers", "statement": "For a TrafficDesc the generator issues the listed transfers in order, each with the command, address, data, byte enables, streaming width and generic attributes listed; it reports an error at the first error response or data differing from what is expected, and at no other.", "quantifier": "every list of transfers and every target", "why_tests_cant": "Every list is one case; the attributes have many independent fields and tests seldom set two of them to different values.", "anchors": ["traffic-generators/traffic-desc.h: getCmd, setExtensions", "traffic-generators/tg-tlm.h: generate"]}
{"id": "C91", "title": "Each batch of transfers runs once and is followed by its own callback", "statement": "The batches given to a generator thread run in the order they were added, each exactly once, and after each its own callback is called exactly once; a callback may add the next batch.", "quantifier": "every sequence of additions, thread starts and completions in any order", "why_tests_cant": "It depends on when the additions come relative to the thread's steps.", "anchors": ["traffic-generators/tg-tlm.h: addTransfers, process, ThreadData"]}
{"id": "C92", "title": "A CHI packet sent as a flit is the packet received", "statement": "The flit a CHI packet is turned into has every field at the position the CHI specification gives it, and parsing it, in the receiving bridge or in the CHI checker, gives back the same attributes, address, length, data and byte enables.", "quantifier": "every request, response, snoop and data packet, all field values and all node, address, data, RSVDC, data check and poison widths", "why_tests_cant": "Errors at a given width or field value need that width and value; shifts by the width of a type are undefined and happen to work on some machines.", "anchors": ["tlm-bridges/private/chi/pkts.h: ReqPkt, RspPkt, SnpPkt, DatPkt (CreateFlit, ParseFlit)", "checkers/flits-chi.h: ReqFlit, RspFlit, SnpFlit, DatFlit"]}
{"id": "C93", "title": "The CHI link layer conserves credits and delivers every packet once and in order", "statement": "On every channel the credits held by the transmitter, by the receiver and on the wires are always 15 in all; the receiver gets exactly the packets given to the transmitter, in order and each once; while the link runs a waiting packet leaves at least every second clock edge and arrives one edge later; a deactivated direction gets all credits back and stops; a reset brings the link back to its initial state.", "quantifier": "every number of channels, every traffic, every sequence of SetPortState calls on both sides, every order of the threads at an edge, every number of edges", "why_tests_cant": "Credit counts depend on the interleaving of traffic with activation, deactivation and resets over unbounded executions.", "anchors": ["tlm-bridges/private/chi/common.h: TxChannel::tx_thread, RxChannel::rx_thread, PortState::state_thread", "tlm-bridges/chi2tlm-bridge-rnf.h: RxChnlsDeactivated, rxreq_ch_thread", "tlm-bridges/tlm2chi-bridge-rnf.h: b_transport_txreq"]}
{"id": "C94", "title": "A CHI link follows the state asked for", "statement": "Two connected bridges that are asked to run reach Run in both directions and stay there; a bridge asked to stop has its transmit direction stopped within a bounded number of edges and keeps it stopped; after a stop is taken back both directions settle in Run again.", "quantifier": "every reachable state, every sequence of SetPortState calls, all traffic and thread orders", "why_tests_cant": "The two sides' state machines interact: whether they settle depends on the edge at which the request comes and on the credits outstanding then.", "anchors": ["tlm-bridges/private/chi/common.h: PortState::state_thread", "tlm-bridges/chi2tlm-bridge-rnf.h: SetPortState"]}
{"id": "C95", "title": "The AXI4-Lite checker reports exactly the faulty traffic", "statement": "The AXI4-Lite checker reports every error response taken outside of reset and nothing else as a response error; it reports a hangup exactly when a valid is withdrawn or a valid or ready that AXI4-Lite makes due is missing for the configured number of clocks; a response without a request is reported; signals that change while valid waits are reported; traffic without faults is never reported, whichever checks are enabled; enabling all checks enables every check.", "quantifier": "every trace of clock edges and resets, every configuration and limit", "why_tests_cant": "Whether a hangup is reported depends on the order of address, data and response over unbounded traces; missing reports do not show in passing tests.", "anchors": ["checkers/checker-axilite.h: checker_axilite_stable, check_axilite_handshakes, check_axilite_responses, check_axilite_reset", "checkers/checker-utils.h: axi_handshakes_checker::run (use_ids false)", "checkers/config-axilite.h: AXILitePCConfig", "checkers/pc-axilite.h: AXILiteProtocolChecker"]}
{"id": "C96", "title": "The Ethernet MAC sends each packet once, whole and in order", "statement": "Every packet handed over on mac_tx_socket, in however many transactions, leaves phy_tx_socket exactly once, whole, in order and, if ctl_tx_fcs_ins_enable is set, followed by the CRC-32 of its bytes; a packet that is dropped, cut short by disabling transmission or overtaken by a reset has no effect on the packets after it; no packet the model accepts writes outside its buffer.", "quantifier": "every sequence of transmissions, receptions, register accesses and resets, every cut of packets into transactions", "why_tests_cant": "The contents of the transmit buffer depend on the whole history of partial, short and refused packets; lengths at the edge of the 64 KiB buffer are rarely sent.", "anchors": ["soc/net/ethernet/xilinx/mrmac/mrmac.cc: mac_b_transport, push_stream, reset_thread", "utils/crc32.h: crc32"]}
{"id": "C97", "title": "The Ethernet MAC's statistics are exact", "statement": "After a write of 1 to TICK_REG_0 every statistics register pair holds exactly the number of packets or bytes of its class sent or received since the tick before, STAT_STATISTICS_READY_0 is set, and the counters are consistent: each packet is in one size class, good or bad, and each good one is unicast, multicast or broadcast; the registers change at no other access; a counter that would pass its maximum saturates.", "quantifier": "every sequence of packets in both directions, ticks and register accesses, every counter", "why_tests_cant": "24 counters in each direction over packets of any length and content and any number of intervals; a count that is wrong for one length or one address class goes unnoticed.", "anchors": ["soc/net/ethernet/xilinx/mrmac/mrmac.h: stats_add, stats_add48, stats_add64, stats_update64", "soc/net/ethernet/xilinx/mrmac/mrmac.cc: stats_update_tx_hist, stats_update_rx_hist, tick, reg_b_transport, mac_b_transport, phy_rx_thread", "soc/net/ethernet/xilinx/mrmac/regs-mrmac.h", "soc/net/ethernet/ethernet.h", "utils/regapi.h: reg_b_transport"]}
{"id": "C98", "title": "The Ethernet MAC delivers the good frames it receives", "statement": "Every frame from phy_rx_socket with a right frame check sequence, or with any if ctl_rx_ignore_fcs is set, reaches mac_rx_socket once and in order, without its frame check sequence if ctl_rx_delete_fcs is set and with a streaming width covering its data; others do not; no frame makes the model read outside its buffer.", "quantifier": "every sequence of frames, turns of the receiving thread, transmissions and register accesses, with and without insertion of the frame check sequence", "why_tests_cant": "Loss depends on how arrivals and turns of the thread interleave; wrong check sequences and very short frames are rarely injected.", "anchors": ["soc/net/ethernet/xilinx/mrmac/mrmac.cc: phy_b_transport, phy_rx_thread", "utils/crc32.h: crc32"]}
{"id": "C99", "title": "Atomic requests compute the operation they name", "statement": "An AtomicStore or AtomicLoad with operation ADD, CLR, EOR, SET, SMAX, SMIN, UMAX or UMIN replaces the 1, 2, 4 or 8 bytes at its address by the result of that operation on them and the operand, in the byte order of the request; AtomicSwap replaces them by the operand; AtomicCompare replaces them by the swap data if they equal the compare data; no other byte changes or is accessed, and all but AtomicStore return the old bytes in their lanes.", "quantifier": "every memory content, operand, size, address whose window is inside a line, and byte order", "why_tests_cant": "Each of the eight operations has its own opcode, sizes and byte orders; the test traffic only uses ADD and CLR.", "anchors": ["tlm-modules/sn-chi.h: HandleAtomic, AtomicOperations, CorrectEndiannessPreOp, CorrectEndiannessPostOp, GetSwapData", "tlm-bridges/amba-chi.h: Req::Atomic"]}
{"id": "C100", "title": "The CHI slave node reads and writes the window of a request", "statement": "ReadNoSnp and ReadNoSnpSep return the bytes of the naturally aligned window of the request in their lanes and change nothing; WriteNoSnp, with its data in packets of any size in any order, stores exactly the enabled bytes from the address to the end of the window, once all data has arrived and not before.", "quantifier": "every memory content, address, size, packet size dividing 64, order of packets, byte enables and content of uninitialised buffers", "why_tests_cant": "Orders of packets, packet sizes, enables and unaligned addresses multiply; the home node always asks for whole lines.", "anchors": ["tlm-modules/sn-chi.h: ReqTxn::ReqTxn, CopyData, AllWriteDataRecieved, tx_thread, DatMsg::DatMsg"]}
{"id": "C101", "title": "The CHI slave node answers every request once and in order", "statement": "Every request is either sent back with RetryAck and PCrdGrant (every other one of those that allow it) or taken; taken requests get, in the order of arrival, exactly the response they are owed, and reads and non-store atomics exactly one data message when they are carried out; no request is lost or carried out twice; identifiers given out are not in use and lead data to the request they were given to; a request waits for an identifier only while 256 others wait for their data.", "quantifier": "every sequence of requests, data packets and turns of the two threads", "why_tests_cant": "The interleavings of requests, data and threads are unbounded, as is the number of outstanding requests.", "anchors": ["tlm-modules/sn-chi.h: b_transport_rxreq, b_transport_rxdat, RunResponsePhase, tx_thread, req_ordering_thread, GetToggle", "tlm-modules/private/chi/txnids.h: GetID, ReturnID"]}
{"id": "C102", "title": "A CHI atomic is carried out once, on the current value, from the payload to memory and back", "statement": "An atomic given to a caching requester takes the operand from the payload (AtomicStore) or from the extension (the others), reaches memory through the home and the slave node, replaces exactly the addressed bytes by the result of the operation on the current value, and returns the old bytes in the payload; copies of the line in caches are not lost and do not hide the result; the content of uninitialised buffers does not matter.", "quantifier": "every opcode, address, size, operand, byte order, memory, target, state of another copy of the line, and content of the uninitialised buffers", "why_tests_cant": "The operand passes four buffers at lanes that depend on the address; cases differ in the state of other caches and in what uninitialised memory holds, and a test sees one content of that.", "anchors": ["tlm-modules/cache-chi.h: HandleAtomic, AtomicStore, AtomicNonStore, HandleSnpUnique", "tlm-modules/private/chi/txns-rn.h: AtomicTxn, WriteTxn", "tlm-modules/iconnect-chi.h: ReqTxn, DatMsg, CopySnpData, IsSnoopingReq, ProcessSnpdReq, ProcessDat, ProcessDat_SN", "tlm-modules/sn-chi.h: HandleAtomic"]}
{"id": "C103", "title": "An exclusive store at a CHI cache is done only on a line that stayed with the requester", "statement": "An exclusive store at a caching requester writes a line only if an exclusive load opened it before and no other requester took the line and no exclusive store started at it since; it is reported as ExclusiveOkay exactly when all bytes were written; a load and store pair without interference succeeds, whether the line was in the cache or not and whether it is shared or not.", "quantifier": "every sequence of exclusive loads and stores of any address and length, snoops and displaced lines", "why_tests_cant": "Failures need a snoop or a displaced line between load and store, at addresses inside a line; the sequences are unbounded.", "anchors": ["tlm-modules/cache-chi.h: LPExclusiveMonitor, HandleLoad, HandleStore, HandleSnp"]}
{"id": "C104", "title": "The exclusive monitor of the CHI home", "statement": "The home answers an exclusive CleanUnique with ExclusiveOkay exactly when the same processor made an exclusive access to the line before and no store by another one came between; nothing else gets ExclusiveOkay; a failing exclusive store takes no copy from other caches; exclusive loads see the current data.", "quantifier": "every sequence of requests at the home, of any opcode, LPID, address and source", "why_tests_cant": "Interleavings of several processors are unbounded; a wrong pass shows only as a lost update.", "anchors": ["tlm-modules/iconnect-chi.h: ExclusiveMonitor, RouteInternal, IsSnoopingReq"]}
{"id": "C105", "title": "The credits of a CCIX link", "statement": "On a CCIX link the 256 credits each for requests, data and snoops are neither lost nor multiplied: those held by the sender, in grants, at the receiver and by messages not yet done always add up to 256. Every message given to the link is in exactly one place and is passed on once; no request waits for ever when all credits have come back; a grant fits its fields.", "quantifier": "every sequence of requests of any opcode, snoops, grants, arrivals and completions in any order and number", "why_tests_cant": "A lost or extra credit shows only after hundreds of messages, in a deadlock or an overflow at the receiver; the interleavings are unbounded.", "anchors": ["tlm-modules/private/ccix/ccixport.h: LinkCredits, CCIXMisc::SetupCredits, CCIXLink, CCIXReq::IsWrite"]}
{"id": "C106", "title": "Whom the CHI home snoops", "statement": "For a request that the home gives to its point of coherence, every request node and every CCIX agent that has the line is snooped, the requester is not, and nobody twice; the request goes on exactly when all snoops are answered, whatever the order of the answers; no answer fails an assertion; a snoop filter has a line exactly if its node got it by a request and has not lost it since.", "quantifier": "every sequence of requests, answers, completions and silently dropped lines, with any number of request nodes and agents, any addresses and opcodes", "why_tests_cant": "A missing snoop shows as stale data much later, after a particular history of several nodes; the histories are unbounded.", "anchors": ["tlm-modules/iconnect-chi.h: SnoopFilter, RequestOrderer, PointOfCoherence", "tlm-modules/private/ccix/ccixport.h: NeedsSnoop, Transmit, UpdateSnoopFilter, Contains"]}
{"id": "C107", "title": "DVM Sync and DVM Complete at the ACE interconnect", "statement": "The initiator of each DVM Sync gets a DVM Complete, exactly one, when all the other participants have sent theirs for it and not before, with any number of Syncs of different ports under way; no assertion fails. A DVM message goes to all participants except its initiator and is answered when they have all answered.", "quantifier": "every number of ports, every choice of participants, every sequence of Syncs, Completes and ends of sending in any interleaving", "why_tests_cant": "Wrong matching needs several Syncs under way with Completes in a particular order and at a particular time; the interleavings are unbounded.", "anchors": ["tlm-modules/iconnect-ace.h: PortDVMCompleteTracker, DVMCompleteHandler, SnoopEngine::handle_dvm_complete, exec_dvm_complete, process_snoop, get_num_dvm_masters"]}
{"id": "C108", "title": "Registers and keys of the HSC", "statement": "A register of the HSC shows the value last written to it and no other register changes; read-only registers keep theirs; malformed and out-of-range accesses are refused without effect. A key stored for an SA through the indirect interface gives the CRC-32 of its 32 bytes as digest, whatever is stored for other SAs and for the other direction; apart from digests nothing the registers show depends on the keys; a reset clears all keys.", "quantifier": "every register, value, state, SA number and key, every sequence of requests", "why_tests_cant": "Interference between keys depends on the pair of SA numbers; that answers do not depend on the keys is a statement about all pairs of key memories.", "anchors": ["soc/crypto/xilinx/hsc/hsc.cc: user_if_b_transport, reg_indirect_access, reset_thread"]}
{"id": "C109", "title": "MACsec frames through the encoder and the decoder of the HSC", "statement": "For a frame at a stream port the encoder sends the addresses, the SecTAG made of the pins, the rest combined with the selected key from the confidentiality offset on, and room for the ICV; the decoder with the same settings and key gives back the frame; all values of the pins within their widths are honoured and no access leaves a buffer; the transactions of a packet make up one frame.", "quantifier": "every frame, key, pin setting, port and reachable state", "why_tests_cant": "Suites, offsets, association numbers, SA numbers, lengths and split points combine; the faults sit at single values and lengths.", "anchors": ["soc/crypto/xilinx/hsc/hsc.cc: plain_input_stream_b_transport, encrypted_input_stream_b_transport", "soc/crypto/xilinx/hsc/hsc.h: pins, fixed_common, fixed_enc, fixed_dec"]}
{"id": "C110", "title": "What the AXI bridge in hardware is told by its TLM side", "statement": "For a TLM write the descriptor, the data memory and the strobe memory given to the hardware make an AXI burst that writes exactly the bytes taking part, at their addresses; a read returns exactly the bytes taking part and leaves the others of the buffer alone; the burst is legal and carries the security, QoS and region of the transaction; responses become the matching TLM status.", "quantifier": "every transaction, bus width, address, length, byte enable pattern and reaction of the hardware", "why_tests_cant": "Offsets, lengths, beats and byte enable patterns combine; a wrong strobe only shows with neighbouring data; hardware is needed to run it.", "anchors": ["rtl-bridges/pcie-host/axi/tlm/tlm2axi-hw-bridge.h: b_transport, desc_access, desc_setup_wstrb, compute_attr, configure_aligner", "rtl-bridges/pcie-host/axi/tlm/tlm-hw-bridge-base.h: dev_copy_to, dev_copy_from", "tlm-bridges/amba.h: map_size_to_axsize, map_size_to_nearest_axsize, tlm_gp_set_axi_resp"]}
{"id": "C111", "title": "Interrupt wires of the hardware bridges", "statement": "However changes of the 64 wires fall between the accesses of the thread: when the thread sleeps each output has the level of its wire; when the wires keep still it comes to rest in a bounded number of accesses; a change wakes it; an output only shows levels its wire had; each pulse of a wire is seen.", "quantifier": "every interleaving of changes of the wires with the accesses of the thread, of any length", "why_tests_cant": "The windows between clearing a flag and reading a level are a few bus accesses wide and depend on the hardware.", "anchors": ["rtl-bridges/pcie-host/axi/tlm/tlm-hw-bridge-base.h: c2h_wires_toggled, process_wires"]}
{"id": "C112", "title": "Bursts received by the AXI bridge in hardware become TLM transactions", "statement": "The TLM transaction made for a burst has its address, exactly its bytes in the order of the burst with their strobes, and the streaming width of its type; the bytes of a read go to the beats and lanes that AXI asks for; the response of one descriptor does not touch the others.", "quantifier": "every bus width, address, AxSIZE, number of beats, burst type and contents of the memories", "why_tests_cant": "Narrow and unaligned bursts of each type move bytes within overlapping buffers; faults show only for some pairs of address and size; hardware is needed to run it.", "anchors": ["rtl-bridges/pcie-host/axi/tlm/axi2tlm-hw-bridge.h: process_desc_free, process_be"]}
{"id": "C113", "title": "Accesses and interrupts of a device behind VFIO", "statement": "A transaction to the VFIO bridge reads or writes exactly its bytes at its address plus the offset of the bridge, aligned ones of 1, 2, 4 and 8 bytes with one access; byte enables and streaming are refused; DMI goes to the same bytes; buffers for DMA do not overlap; no interrupt of the device is lost and short transactions acknowledge it.", "quantifier": "every transaction, mapping, offset and contents; every interleaving of the line, the polling thread, transactions and the process of the output", "why_tests_cant": "Races between a thread of the host, the kernel and the simulation; needs a PCI device behind VFIO.", "anchors": ["tlm-bridges/tlm2vfio-bridge.h: b_transport, get_direct_mem_ptr, tlm_mm_vfio, irq_poll, irq_ack, irq_proxy", "utils/dev-access.h: memcpy_from_io, memcpy_to_io"]}
{"id": "C114", "title": "Ownership of the descriptors of the AXI slave bridge in hardware", "statement": "Each available descriptor is handled once, in order, and its ownership flipped after it; the two books of held descriptors agree; descriptors are handed back all at once and only when the hardware is at rest; the thread does not sleep while it holds them all, and enables the interrupts when it sleeps.", "quantifier": "every sequence of register contents that the hardware may show and every reachable state", "why_tests_cant": "Depends on the order in which hardware frees and fills descriptors; needs the FPGA.", "anchors": ["rtl-bridges/pcie-host/axi/tlm/axi2tlm-hw-bridge.h: process, work_thread"]}
