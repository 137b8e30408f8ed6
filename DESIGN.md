# Formal model of Xilinx/libsystemctlm-soc (Rocq/Coq 8.16.1)

Everything is in `rocq/theories`, logical name `Verif`. The source tree `/repo` is
read as text; nothing is compiled from it.

## Trusted base

* The Coq kernel (`coqc`; `coqchk` re-checks the compiled files).
* The reading of the C/C++ sources. Each definition in a `*Model.v` file cites the
  file and lines it models, and says where it simplifies. Nothing connects the model
  to the C++ mechanically.
* Axioms: none of our own and none used. `Print Assumptions` is printed below every
  property theorem and says "Closed under the global context" each time (table at the
  end). `lia` loads the ssreflect part of the standard library; its module
  `Coq.ssr.ssrunder` declares parameters which a listing of the whole environment
  shows. No theorem depends on them.
* SystemC itself (scheduler, `sc_fifo`, `sc_event`, sockets) is represented by the
  assumption each model states: threads are cooperative and switch only at `wait`;
  a `b_transport` call is a function call.
* The operating system is an oracle (an arbitrary list of results of system calls).

## Conventions

* `XModel.v`: executable model. `XSpec.v`: the specification in which the property
  is stated, independent of the model's helpers. `XProofs.v`: lemmas.
  `PropsX.v`: the property theorems, each with an `Example` that meets the
  hypotheses, and `Print Assumptions`.
* `res A = Ok a | AssertFail | UB | Unmodelled`: assertion failures/exit and
  undefined behaviour are outcomes. No theorem counts them as success.
* Integers are `N`/`Z`, with explicit reduction where C wraps and it matters.
* `_partial`: part of the property, or the property under restrictions.
  `_refuted`: the code does not have the property; the theorem exhibits the witness.
  A property with such a theorem is "partial" in `MANIFEST.json`.
* A target is any function `state -> payload -> state * (buffer, status)`. Theorems
  that quantify over `t : target S` hold for every device behind the module.
  `atomic_memory bad` is a memory that refuses a payload touching a `bad` address.
* `seeded/LOG.jsonl` lists the wrong programs tried against the theorems.

## What is modelled, and how it is proved

| Id | Source | Model | Method |
|----|--------|-------|--------|
| C01-C03, C36, C39 | libremote-port/remote-port-proto.c, remote-port-tlm.cc | packet codec and receive loop as functions on byte lists | round trip, induction over the message sequence |
| C04-C05 | libremote-port/safeio.c | read/write loops against an oracle of OS results | induction over the oracle list |
| C06 | remote-port-tlm.cc (response slots) | transition system with any number of threads | invariant over all operation sequences |
| C07 | remote-port-proto.c (capabilities) | capability processing | induction over the list |
| C08-C09, C37-C38 | remote-port-tlm-memory-*.cc | request, remote handling, response composed through the codec | composition of round trips for an arbitrary target |
| C34-C35 | remote-port-tlm-wires.cc, sync | events and time | induction over event sequences |
| C10-C12 | tlm-modules/tlm-aligner.h | aligner loop | loop invariant, refinement to one access on a byte memory |
| C13 | tlm-modules/tlm-splitter.h, wire-splitter.h | broadcast | induction over the outputs |
| C14, C40 | tlm-modules/tlm-wrap-expander.h | both modes | modular arithmetic |
| C15, C41 | tlm-modules/tlm-exmon.h | state machine over histories | invariant |
| C16, C42-C43 | soc/interconnect/iconnect.h | routing, DMI, debug | case analysis |
| C17-C19, C44-C45 | utils/regapi.h, bitops.h | register block, bit helpers | bit-level reasoning for every width |
| C20 | utils/crc32.h | table-driven CRC | table equals bitwise definition; induction over the input |
| C21 | tlm-extensions/genattr.h | attribute copy | field by field |
| C22-C23 | tlm-modules/private/chi/{txnids,cacheline}.h | transaction ids, cache line fill | invariant |
| C24, C46 | soc/dma/xilinx-cdma.h | engine and registers | loop invariant |
| C25-C28, C48-C49 | tlm-modules/iconnect-ace.h, cache-ace.h, private/ace | caches, snoops, points of serialisation; any number of masters | inductive invariants over all interleavings |
| C29-C30, C32-C33 | tlm-bridges/tlm2axi-bridge.h | beats, strobes, lanes, response queues | lane arithmetic, queue invariants |
| C31-C33, C47 | tlm-bridges/axi2tlm-bridge.h | bursts to payloads, scheduler | lane arithmetic, invariants; composition with tlm2axi |
| C50-C52 | tlm2mii, mii2tlm, tlm2xgmii, xgmii2tlm bridges | wires clock by clock | induction over the frame |
| C53-C54 | tlm2axis, axis2tlm bridges | wires clock by clock, any ready pattern | invariant over the edges |
| C55-C56 | tlm2wishbone, wishbone2tlm bridges | wires clock by clock, any latency | induction over the beats |
| C57-C58 | tlm2native bridge | whole class | direct |
| C59-C60 | tlm2apb bridge | wires clock by clock, any wait states | induction over the calls |
| C61-C62 | tlm2axilite, axilite2tlm bridges | one transaction at a time (mutex), optional aligner | lane arithmetic, composition with C10-C12 |
| C63-C65 | tlm2tlp-bridge.h | packets as byte lists; two bridges back to back | bit-field arithmetic, round trips |
| C66-C67 | tlm2cxs-bridge.h, private/ccix txlink.h, rxlink.h, portstate.h, CXSCntl/TLP/TLPAssembler of pkts.h | one direction of a link, a step is one clock edge seen by both ends | invariant over executions, decreasing measure, digit arithmetic for the control word |
| C68-C69 | CCIX messages of private/ccix/pkts.h, ccixattr.h | messages as words, TLPs as byte lists; parser with explicit out-of-range reads | field arithmetic, parsing lemmas per message class, composition with C67 |
| C70-C73 | cache-chi.h, private/chi/txns-rn.h, iconnect-chi.h (point of coherence, snoop filter), sn-chi.h | any number of caches, the home and memory as an interleaving machine (ChiModel.v lists the simplifications) | case analysis for the snoop tables; inductive invariant over all executions for coherence, answers and progress |
| C74-C77 | soc/dma/xilinx/mcdma/mcdma.cc, mcdma.h, regs-mcdma.h | dma_thread from one bus access to the next, register accesses, packets, interrupt updates and resets as steps in any order | inductive invariant with a decreasing measure; bit arithmetic for the registers |
| C78-C84 | checkers/checker-axi.h, checker-utils.h, config-axi.h, axi_common of tlm-bridges/amba.h | a trace of clock edges with the sampled channels and falling edges of resetn; each SC_THREAD is a step from one wait to the next | one generic lemma for the reset loop; queue and counter invariants by induction over the trace; arithmetic for lanes and pages |
| C85-C88 | soc/pci/xilinx/qdma.h, qdma-ctx.inc (CPM4 and CPM5) | run_mm_dma cut at its loop test and after each copy, configuration writes, context commands and resets as steps in any order; contexts are 256-bit numbers with bit-fields | induction over the batch of posted descriptors; ring-window invariant for the interrupt ring; bit arithmetic |
| C89-C91 | traffic-generators/random-traffic.h, traffic-desc.h, tg-tlm.h | one round of generate per transaction with rand_r as an arbitrary function of the seed; the thread's loop cut at its wait, with additions in between | invariant over the rounds; induction over the list and over the sequence of additions |
| C92 | tlm-bridges/private/chi/pkts.h, checkers/flits-chi.h | flits as numbers with a running bit position; undefined shifts are UB, accesses outside the flit AssertFail | one lemma for writing and one for reading a list of fields, at any widths |
| C93-C94 | tlm-bridges/private/chi/common.h (TxChannel, RxChannel, PortState) | two bridges back to back, any number of channels; a step is one clock edge, with the order of the threads as an input | inductive invariant over executions; decreasing number of credits owed; a periodic orbit for the refuted case |
| C95 | checkers/checker-axilite.h, pc-axilite.h, config-axilite.h, axi_handshakes_checker of checker-utils.h with use_ids false | traces as for C78-C84; all threads of the module together | the channel lemmas of C82-C84; counters as differences modulo 2^32 |
| C96-C98 | soc/net/ethernet/xilinx/mrmac/mrmac.cc, mrmac.h, the registers of regs-mrmac.h it uses, soc/net/ethernet/ethernet.h | transmit buffer, receive fifo, counters, registers by address; a step is a transport call, a turn of phy_rx_thread or a reset | induction over runs; counters as sums of weights of frames |
| C99-C101 | tlm-modules/sn-chi.h, private/chi/txnids.h, the opcodes of tlm-bridges/amba-chi.h | requests with their buffers (initial content an input), a byte memory that accepts an access or not, queues, identifiers; a step is a request, a data packet or a turn of one of the two threads | direct calculation on bytes; induction over packets; inductive invariant (permutation of requests and of identifiers) over executions |
| C102 | tlm-modules/cache-chi.h and private/chi/txns-rn.h (atomics), tlm-modules/iconnect-chi.h (an atomic through the home), on top of C99 | one function from payload, memory and the state of another copy to memory, payload and that state; uninitialised buffers are inputs | composition with the theorems of C99; calculation on lanes |
| C103, C104 | tlm-modules/cache-chi.h (exclusive loads and stores, their monitor), tlm-modules/iconnect-chi.h (ExclusiveMonitor, RouteInternal) | per line whether it is valid and unique, the list of addresses in the monitor, events; the list of LPIDs at the home and where a request is sent | invariants by induction over sequences of events |
| C105 | tlm-modules/private/ccix/ccixport.h (LinkCredits, CCIXMisc, CCIXLink, where the port gives credits back) | one direction of a link: sender's counters modulo 2^32, waiting threads, messages and grants under way, messages at the receiver | invariants by induction over sequences of events; permutation of messages; orbits for the refuted cases |
| C106 | tlm-modules/iconnect-chi.h (Address, SnoopFilter, RequestOrderer, PointOfCoherence), ccixport.h (NeedsSnoop, Transmit, UpdateSnoopFilter, Contains) | filters as lists of lines; one request at a time; snoops under way with TxnID, node and line; which node has which line is a separate list in the specification | inductive invariant: filters include what the nodes have, trackers match the snoops under way |
| C107 | tlm-modules/iconnect-ace.h (PortDVMCompleteTracker, DVMCompleteHandler, the DVM part of SnoopEngine) | trackers as a list of ports with flags; threads that send a Complete; events in any order | invariant that relates the flags to the Completes that each Sync still needs, by induction over executions; permutation of those told |
| C108 | soc/crypto/xilinx/hsc/hsc.cc (user_if_b_transport, reg_indirect_access, reset_thread) | registers and key memory as functions of the word number; requests and their answers | case analysis; relation between two modules with the same registers and any keys, by induction over the requests; CRC of C20 |
| C109 | soc/crypto/xilinx/hsc/hsc.cc (both stream transports), hsc.h (pins) | frames as byte lists, unwritten memory as None, pins as numbers read with a sign | invariant byte_count = 0 over all executions; frames in pieces; masks by induction over the bytes; exhaustive check of narrow pins |
| C110 | rtl-bridges/pcie-host/axi/tlm/tlm2axi-hw-bridge.h (b_transport, desc_access, desc_setup_wstrb, compute_attr, configure_aligner), tlm-hw-bridge-base.h (dev_copy_to, dev_copy_from), tlm-bridges/amba.h (AxSIZE, responses) | device memory as a function of the byte offset, descriptor as a record, hardware as a parameter | bits of the strobe words; induction over words and beats; arithmetic of containers per width and AxSIZE |
| C111 | rtl-bridges/pcie-host/axi/tlm/tlm-hw-bridge-base.h (c2h_wires_toggled, process_wires) | thread as a machine with one device access per step, wires and flags as functions | invariant over all interleavings; bounded progress; history of levels |
| C112 | rtl-bridges/pcie-host/axi/tlm/axi2tlm-hw-bridge.h (process_desc_free, process_be) | buffers as functions of the position, bursts by address, size and number of beats | loop invariants for any map of places; arithmetic of beats and lanes for powers of two |
| C113 | tlm-bridges/tlm2vfio-bridge.h (b_transport, get_direct_mem_ptr, tlm_mm_vfio, irq_poll, irq_ack, irq_proxy), utils/dev-access.h, utils/vfio/vfio-ll.h (unmask_irq), utils/async_event.h | region as a function of the offset, device accesses as a list, interrupts as a machine with one step per thread step | induction over bytes; little endian round trip; invariant over all interleavings |
| C114 | rtl-bridges/pcie-host/axi/tlm/axi2tlm-hw-bridge.h (process, work_thread) | desc_busy as a number, desc_state as a function, registers as inputs, device accesses as a list | invariant over all executions; bits of the loop over 16 descriptors |

### Left out of the models

* Reset, signal timing below a clock cycle, delays (except where a property is about
  them), DMI hints, extensions not named above, debug printing, memory exhaustion.
* ACE: failing downstream accesses, maintenance of several lines, DVM, more than 16
  requests queued in one engine, zero-length requests.
* AXI: barriers only for the refutation; reset; QoS, region and user signals.
* Remote port: sockets and chardev setup, the QEMU side, PCI, `remote-port-sk.c`.
* TLP: delays, I/O and message sockets. Whether the peer swaps the request buffer
  back is a parameter (`restored`); transmitTLP sends one request at a time.
* CXS: the two directions are coupled only through deactivation requests, which the
  model lets happen at any edge. sc_bv values are lists of bytes. Reset hits both
  ends between two edges.
* CCIX: the attribute object is a list of the members set (last one first). The payload
  handed to the sender has its data length as streaming width. Extension types other
  than 0, 1, 2 and 6 are skipped, as in the code. Port, target and transaction pools
  above the messages (`TxnIDPool`, credits in `rxlink`/`txlink`) are left out.
* CHI (C70-C73): retries, identifiers, link credits, exclusives, atomics, DVM, stash requests,
  cache maintenance, non-shareable regions and CCIX ports are left out of the machine; a
  snoop with its response, and everything from the last response to the end of the
  request, are single steps (the home serves one request at a time). C71-C73 assume, as
  stated with the theorem, what the refuted cases show to be needed.
* MCDMA: time; stream_b_transport is one step; stream targets accept every packet; the
  generic attributes other than eop; hexdump and printf.
* AXI checker: signals change only right after a clock edge; the text of the reports;
  SC_REPORT_ERROR returns; the AXI4-Lite, ACE and CHI checkers; the transaction dump.
* QDMA: QDMA_SOFT_IP and legacy interrupts; the user BAR; the 10 ns MSI-X pulses of
  msix_strobe (only the order of notifications is kept); host and card are separate
  memories; byte enables and streaming width; the contexts and ring indexes are not
  initialised by the constructor, the theorems hold for any initial contents.
* C89-C91: the debug output, delays, the copy and move constructors of DataTransfer and
  the vector's growth; pointers (a TrafficDesc is the list it holds; m_data and
  m_byte_enables are taken to be large enough, which C89's bounds on the lengths imply);
  several threads of one generator share nothing and are modelled as one. The rand_r of
  the GNU C library in TgSpec.v is written from its published source and used for the
  concrete cases only.
* C92: the payload's command, response status and streaming width, and its deletion; the
  events; a received packet's data length is the bus width by construction. An sc_bv range
  out of bounds, a SystemC error, is AssertFail.
* C93-C94: flitpend, txsactive/rxsactive, the threads that take packets from the receiver's
  list (GetNext) and the time they need; several flits per packet; resets at different
  times on the two sides.
* C95: m_max_depth, which no AXI4-Lite check reads; the reports of the threads are grouped
  by thread, their order in time is not modelled.
* C96-C98: registers MRMAC's code does not use (an access to one is Unmodelled); the state
  before the first reset, when the registers are not initialised; b_transport calls that
  overlap because a target waits; delta cycles of rxfifo; the memory of lost frames and
  `delete` of an array (mrmac.cc l.367); the warnings. The marks RxTook and Ticked among the
  outputs are not transactions: they record that the thread took a frame and that tick ran.
* C99-C101: big-endian hosts; the minimum and maximum operations of AtomicOperations (out of
  reach, see C99); QoS and TraceTag; addresses above 2^64; how long the transmit channels and
  the target take (both threads may be slower, steps are in any order); aliasing and
  alignment rules of reinterpret_cast. The list s_done is not in the code: it records the
  requests that were deleted.
* C102: more than one other copy of the line at a time; states UCE and UDP; CCIX ports; several
  transactions at once; data from the requester in
  packets smaller than a line; requests of 64 bytes and more in the unsigned arithmetic.
* C103, C104: snoops during a call, partly filled lines, the two security states, data; exclusive
  accesses that are not snoopable; requests that wait in the request orderer.
* C105: credited miscellaneous messages (nothing sends them); the order in which the simulator
  wakes threads that wait for the same event is taken to be the order in which they began to wait;
  loss of messages. k_done is not in the code.
* C106: DVM operations; direct transfer from cache to cache; answers in several packets;
  reuse of TxnIDs; failing exclusive requests enter as requests not given to the point of
  coherence (C104).
* C107: how a master treats DVM messages; the exclusive monitor; two Syncs of one port under way
  (the ACE rules forbid it); ACE-Lite initiators of DVM messages.
* C108: statistics and configuration groups of the indirect interface (not in the code either); contents
  of registers before they are written; the key memory counts as one flat array.
* C109: ICV, replay protection, packet numbers of the egress (not in the code); channelized mode and other
  crypto modes only as refused; response of the socket behind; what happens before the first reset;
  delete of memory from new[] (l.549, l.763) counts as harmless.
* C110: the RTL (its strobes without a strobe memory are taken to cover the burst, as AXI has it), DMI and
  utils/dev-access.h, desc_wait_ownership, the completion interrupt, bridge_probe and bridge_reset, sizes near 2^32.
* C111: other sources of irq, reset of the bridge while wires change, h2c wires, fewer than 64 connected outputs.
* C112: mode 1 (memory manager), the wrap expander behind the bridge,
  the attributes of the burst (secure and QoS: C110), buffers shorter than the burst.
* C113: setup of the device (vfio-ll.h l.190-365), failing ioctl and read, several bridges on one eventfd, mmap that
  fails, negative nr_gp; the kernel's INTx (an unmasked line counts and masks itself, an unmask while the line is up
  counts again) is taken from its interface; delay and the genattr extension are not used by the code.
* C114: the payloads of mode 1 (l.536-539), the waits and the interrupt (l.579-583), reset and recovery (l.160-225); BUSY
  covers TXN_AVAIL (rtl/slave/slave_inf.v l.3256-3267) as an assumption of C114_held.
* Not modelled at all: UMI bridge (its header is not in the repository), `tests/`,
  `rtl-bridges/` (Verilog), tracing.

## Findings

Each is a `_refuted` theorem unless marked "read", which means seen in the source
but not modelled.

* C02 64-bit master ids are stored into 16 bits when decoded.
* C36 ATS packets are decoded without swapping the timestamp and report no bytes used.
* C39 IGNORE payloads announce data they do not send; byte enables sent to an
  old-layout peer are not counted in the length. Both lose packet synchronisation.
* C37 IO access is not sent. C38 a posted write leaves the status as it was.
* C34 a wire change while the sender waits for an acknowledgement is lost.
* C35 local time offsets beyond the quantum let remote time run backwards.
* C14, C40 the wrap expander does not rotate in single-payload mode, and leaves the
  wrap attribute on what it sends.
* C15 the exclusive monitor sees only writes that start inside the reserved range.
  C41 it reports success and failure alike.
* C16 an unmapped address uses an unassigned offset; with an initiator offset the
  payload comes back with the translated address. C42 DMI of a whole region asserts.
  C43 debug transfers return 0.
* C18 clear-on-read bits read as zero; any write clears w1c bits. C45 byte enables
  and IGNORE are not looked at. C19 a value wider than its field spills.
* C21 copying attributes forgets IO access.
* C22 one returned id wakes two waiters.
* C24, C46 CDMA: forward overlap, ignored errors, unchecked register index.
* C25, C26, C28, C49 ACE: a lost exclusive CleanUnique leaves two unique copies;
  sparse stores, CleanInvalid, mixed write-through and secure accesses lose data;
  monitor and cache disagree on exclusives. C27 a newcomer overtakes a waiter.
* C29-C33 AXI: see the notes in `MANIFEST.json` (widths above the bus, unaligned or
  narrow FIXED, narrow WRAP, lost errors, interleaved read data, narrow INCR writes,
  security attribute taken from the read channel, barriers issue twice).
* C52 MII/XGMII receivers overrun their buffer and pass on runts of length 2^32-4.
* C54 AXI-Stream: a boundary inside a beat, waiting targets, empty last transactions.
* C56 Wishbone: short writes clear the rest of the word, unaligned accesses, overruns,
  lost errors. C58 tlm2native range check wraps. C60 APB: delay, concurrency, IGNORE.
* C62 AXI-Lite: silent truncation, hanging reads, lost errors, IGNORE writes.
* C63 TLP writes: unaligned writes land at the aligned address, short ones clobber
  the rest of the word, disabled bytes are written, odd lengths read past the buffer.
  The lower address of completions is always 0. C64 reads above one word assert, and
  fail altogether unless the peer restores the swapped request buffer. C65 the
  completion status is ignored; accesses across a word assert or shift out of range.
* C66 reset keeps the credit counters but clears the grant wire: a credit in flight is
  lost and the link cannot be deactivated any more. C67 a reset answers OK for a packet
  whose last flit is still on the wires; CXSCntl::to_uint64 shifts unsigned int by up to
  39 bits.
* C68 the setters of address bits 63:60, 59:52 and 31:6 get the unmasked address: every
  request or snoop with a bit of 39:32 set, or at or above 2^52, asserts. Partial writes
  of 8 bytes arrive with their byte enables as data; lengths that are no multiple of 4
  run past the buffer; SnpCast, PayloadSz and Poison1 are lost; MiscCredit and MiscOp
  share bit 19; payloads of 31 and 32 bytes overflow Payload[32] at the receiver.
* C69 a message with length field 0 makes the receiver loop for ever; chained requests
  lose four bytes of data and desynchronise the parser, chained snoops read past the TLP.
* C70 SnpClean/SnpShared/SnpNotSharedDirty of a Unique Dirty line answer SC_PD but leave
  the line dirty (two owners, C72); SnpUniqueFwd of a dirty line puts I_PD in FwdState.
* C71 as constructed (direct cache transfer on, nodes connected directly) a store to a
  line another cache has written loses the other bytes: the forwarded CompData has
  uninitialised byte enables. Over flit bridges forwarding a dirty line for a load, or
  for ReadOnceCleanInvalid/MakeInvalid, loses the dirty data. A 64-byte store with
  disabled bytes uses MakeUnique; partial lines are ignored by ReadOnce; two CleanUnique
  requests race; the line is unprotected between MakeUnique and its store.
* C73 with randomised requests WriteUnique of a store that crosses a line loses its
  second part; ReadOnce answered by the slave node fails an assertion without flit bridges.
* C74 a descriptor of more than 128 KiB overruns the stack buffer of dma_thread; after a
  failed data read the previous contents are sent and the descriptor is completed; old
  low bits of the status word are or-ed into the length.
* C75 S2MM data is written before the completed bit is looked at; writing a new tail
  does not clear IDLE, so a channel that ran out of descriptors drops all later packets.
* C76 a reset does not update the lines; S2MM_INTR_STATUS is writable; the status
  registers of channels 2 to 16 have no write-one-to-clear bits.
* C77 the case range of b_transport ends at CH15, so channel 16 never starts; ev_dma is
  lost while the engine is at a bus access and the rest of its scan finds nothing.
* C78 reads beyond max_depth are dropped without a report, then their answers are
  reported as errors.
* C79 the wlast check accepts bursts that are too long; the default configuration never
  looks at B responses although docs/protocol-checker.txt promises it; GetNext, the only
  user of check_wr_tx_data_order, is not called for AXI3, the only version it is for.
* C80 CheckWstrb does not wrap addresses and aligns FIXED bursts after the first beat; an
  AWSIZE wider than the bus makes it read outside of WSTRB.
* C82 for AXI3 m_aw and m_wlast count over all ids, so the comparison with the id lists
  can lose an expected response; the expected B is then never missed.
* C83 the monitor waits for a rising valid, so back-to-back transfers escape it.
* C84 the initial reset has no falling edge and is not checked.
* C85 do_mm_dma moves whole words, up to 3 bytes beyond the descriptor's count.
* C85 run_mm_dma is not protected against a second doorbell on the same queue while
  its bus accesses wait: one descriptor is processed twice and another never.
* C86 the producer index goes through a 12-bit field; err_int and rsvd of an entry are
  never initialised.
* C87 handle_irq_ctxt_cmd does not check its index; run_mm_dma's test is `qid >
  QDMA_QUEUE_COUNT`, so queue 2 (whose doorbell is decoded) is out of bounds.
* C88 short writes clear the rest of a register; no address check.
* C89 an address mask can move the address below minAddress; minDataLen 0 allows `% 0`;
  setMinStreamingWidthLen allows a streaming width above the length; a read-back and a drawn 0
  exceed setMaxStreamingWidthLen; initMemory truncates
  the window to 32 bits.
* C90 setExtensions calls `set_region(t.ext.gen_attr.qos)`.
* C91 addTransfers overwrites a batch not yet taken, and replaces the callback of the batch
  in progress.
* C92 `(1 << width) - 1` and `static_cast<T>(1) << width` are undefined at the default
  widths; SetData loops to `i <= len`; m_pos is not set back between the flits of one data
  packet; DatPkt reads RSVDC as uint8_t; GetSize is 0 for lengths that are no power of two.
* C93 RxChannel does not filter credit return flits; m_credits is not reset while lcrdv and
  flitv are; ClearList deletes packets the bridges allocated on the stack.
* C94 state_thread sets deactivateTx whenever its receive direction is in Deactivate, also
  while its transmit direction is coming up again: two bridges can bounce for ever.
* C95 axi_handshakes_checker without ids counts an answer as due from the data on, whether or
  not the address has come; m_rt and m_b go below zero on responses nobody asked for, which
  then pay for a later request; enable_all_checks does not set m_resp_check.
* C96 txpos is not reset when a packet is dropped, when transmission is disabled, or by a
  reset; the assertion leaves no room for the frame check sequence.
* C97 tick runs on any access to TICK_REG_0, of any size and also a read; the statistics
  registers have no ro mask; stats_add returns without changing the counter, which is not
  its maximum for additions above 1.
* C98 `len -= 4` changes a local variable only; a full rxfifo drops frames without a count;
  len - 4 is negative for frames below 4 bytes and the header is read without a check;
  set_streaming_width is not called after the insertion.
* C99 amba-chi.h l.91-102 writes the sub-opcodes as 010, 011, 100, ...: octal and decimal
  literals, so GetAtomicOp() (three bits) only ever matches ADD and CLR. Read in the code that
  is out of reach: UMIN calls DoUMAX, SMAX uses unsigned types, the maximum of 32- and 64-bit
  numbers is taken by an unsigned difference, the minimum by a signed one that may overflow.
* C99 HandleAtomic accesses the outbound length (twice the operand) for AtomicCompare.
* C100 DatMsg copies 64 bytes from the middle of m_dataSlave when the window does not start a
  line; DataID is used as a packet number, in CHI it is address bits 5 and 4.
* C101 PrefetchTgt is answered with CompDBIDResp and waits for data for ever.
* C95 the setter of the handshake check sets m_resp_check (config-axilite.h l.102).
* C102 CopyCHIAttr (txns-rn.h l.196-222) and ReqTxn (iconnect-chi.h l.221-281) do not pass Endian on.
* C102 IsSnoopingReq (iconnect-chi.h l.508-511) lists opcodes, not ranges: AtomicStore and
  AtomicLoad snoop with sub-opcode ADD only.
* C102 snooped data sets the length of the request to 64 (iconnect-chi.h l.665-668), which is then
  the length of the atomic at the slave node; dirty data is written with the address of the
  atomic and with byte enables that are never initialised (l.1178-1180).
* C102 AtomicTxn::CopyDataNonCoherent (txns-rn.h l.1358-1392) ignores the offset of a packet.
* C102 GetSnpMe (iconnect-chi.h l.322-326) is always false: no atomic reaches the requester's own copy.
* C103 the monitor holds the address of the access (cache-chi.h l.1958), a snoop clears the address
  of the line (l.803-805), a displaced line clears nothing, a hit sets nothing (l.1910-1913).
* C103 HasExclusiveOkay (l.1955, l.2004) looks at the payload, to which no answer is copied.
* C104 HandleExclusive (iconnect-chi.h l.3113-3137) keeps LPIDs only and fails every exclusive
  load, which RouteInternal (l.3313-3321) then sends to memory without snooping.
* C105 CCIXReq::IsWrite (ccixport.h l.447-465) leaves atomics out, so Transmit (l.2613) takes no data
  credit for them, but their completion (l.3402-3403, l.3651) gives one back.
* C105 Transmit of a snoop (l.2622) tests once, with `if`: after a grant without snoop credits it
  goes on and the unsigned counter passes below zero.
* C105 MsgCrdt_SnoopShift (l.2721) is 2, as is the one for data.
* C106 Transmit of a snoop (ccixport.h l.3704-3721) sends one TxnID to all agents of a port that have
  the line, the requester included; the first answer ends it (iconnect-chi.h l.2990-2997) and the
  second fails the assertion of l.2945.
* C106 UpdateSnoopFilter after an answer (ccixport.h l.3738-3752) looks for the source of the
  request, not of the answer: a line is struck from the wrong filter or from none.
* C106 Contains (ccixport.h l.3754-3766) asserts that there are agents, and ProcessResp
  (iconnect-chi.h l.2952-2953) calls it for answers of request nodes too.
* C107 handle_dvm_complete (iconnect-ace.h l.1453-1471) asks for one finished tracker, and a tracker stays in
  the list until its Complete is sent (l.1444-1451): a Complete in between finds it again and not
  the one that it finished.
* C107 SetRunning (l.1125) always stores false, so the assertion of l.1158 never fails.
* C107 a Sync without other participants (l.1163-1172) is finished at once, but only a Complete
  looks for finished trackers.
* C107 num_masters of a DVM message (l.1399) subtracts the initiator even if it takes no part.
* C108 user_if_b_transport (hsc.cc l.789) lets the index XILINX_HSC_MAX_REGS pass, one behind the array.
* C108 a write of less than four bytes (l.803, l.823) overwrites the whole register; one of no bytes clears it.
* C108 reg_indirect_access (l.260-262) indexes the key memory by words, so that the 32 bytes of SA n
  overlap those of SA n-7 to n+7; the streams use the same index (l.505, l.721).
* C109 the decoder takes the key byte of the position in the frame with the SecTAG, 16 further than
  the encoder (l.523, l.740): only keys of 16 bytes come out right.
* C109 the pins are sc_int, with a sign (hsc.h l.69-95): suite 2, offset 50 and SA numbers from 2^19 on never match
  or address memory before the keys; association numbers 2 and 3 set the whole TCI (l.444).
* C109 (l.446) the short length is reduced to 0 or 1; (l.456, l.672) `tci_an | 0x20` is always true, so that the
  SecTAG of eight bytes does not exist.
* C109 offset 30 copies 42 bytes without looking at the length of the frame (l.478-485).
* C109 byte_count is never updated: each transaction counts as the start of a packet (l.350, l.411).
* C109 the decoder leaves the ICV in bypassed frames (l.690) and takes 16 bytes from frames that have none (l.738);
  with bypass and 15 to 27 bytes it copies a negative number of bytes.
* C109 the genattr extension is used without a check (l.406, l.757).
* C110 tlm2axi-hw-bridge.h l.320 puts `secure` into bit 9 of ATTR, which is AxPROT[1]: non-secure; axi2tlm-hw-bridge.h
  l.331, l.347 reads it as non-secure, so that security is inverted from one bridge to the other.
* C110 tlm2axi-hw-bridge.h l.354-367 leaves strobes to the hardware for each length that is a power of two, although
  the comment (l.349-353) asks for a single beat; unaligned, bytes are lost or written that were not asked for.
* C110 tlm2axi-hw-bridge.h l.197 calls configure_aligner although the aligner is a null pointer without
  aligner_enable (l.130, l.146, l.182).
* C110 tlm2axi-hw-bridge.h l.321 does not cut QoS to 4 bits: it spills into the region.
* C111 a pulse on a wire that ends before process_wires reads the level (l.302-304) is not forwarded.
* C112 axi2tlm-hw-bridge.h l.357, l.410-415: a single narrow read (one byte, say) becomes a TLM read up to the end of
  the bus width; registers behind the byte are read as well.
* C112 axi2tlm-hw-bridge.h l.410-414: an unaligned FIXED read asks for more bytes than beats times streaming width: a
  FIFO loses data.
* C112 axi2tlm-hw-bridge.h l.391, l.463: narrow WRAP bursts that are smaller than the bus take the lanes of INCR.
* C113 tlm2vfio-bridge.h l.277-279: an access beyond the mapping gets an error status but no return: it is made, and
  l.297 answers OK.
* C113 tlm2vfio-bridge.h l.304-306: DMI ignores the offset of the bridge (l.275): with an offset DMI and transactions go
  to different registers.
* C113 tlm2vfio-bridge.h l.293: only transactions of less than 8 bytes acknowledge; a driver with 8 byte accesses keeps
  its interrupt for ever.
* C113 tlm2vfio-bridge.h l.104 unmaps half of what l.70 mapped.
* C113 dev-access.h l.52-63: aligned reads of 2 and 4 bytes are wrong on big endian hosts; MIN (l.88) is not defined in
  the header.
* C114 axi2tlm-hw-bridge.h l.529-540: a descriptor that is available and acknowledged in one call would be handled and
  forgotten; only the hardware's BUSY prevents it.
* C114 axi2tlm-hw-bridge.h l.565: finished descriptors go back only when all 16 are held, all at once; the comment of
  l.515 ("ready to ACK") reads as if each could.
* read: wishbone2tlm accumulates `delay` and never waits for it.
* read: AXI-Stream and PHY bridges answer READ payloads as if they were packets; the
  PHY bridges use `delete` for `new[]`; the XGMII frame check sequence is C0 C1 C2 C3.
* read: ACE zero-length maintenance never completes; multi-line maintenance uses a
  transaction after it is freed; DVM `SetRunning` ignores its argument
  (iconnect-ace.h:1125).
* read: tlm2axi `validate` (l.478-536) has a precedence bug but is not called; beat
  counts overflow near 2^32. axi2tlm validates reads only, does not check an early
  WLAST, and keeps its barrier count across reset.
* read: remote-port `rp_pkt_main` continues on EINTR without unlocking
  (remote-port-tlm.cc:311-314); `devs[hdr.dev]` is not range checked; hello packets'
  capability offset and length are trusted.
* read: interconnect `invalidate_direct_mem_ptr` (l.279-297) indexes by target id.

## Print Assumptions

Printed in the named file, below the theorems; "closed" is "Closed under the global
context".

| Theorem | File | Assumptions |
|---------|------|-------------|
| `C01_packets_survive_the_wire` | PropsRpProto.v | closed |
| `C02_master_id_refuted` | PropsRpProto.v | closed |
| `C02_master_id_partial` | PropsRpProto.v | closed |
| `C03_stream_framing` | PropsRpProto.v | closed |
| `C04_read_returns_next_bytes` | PropsRpIo.v | closed |
| `C04_read_fails_only_on_error` | PropsRpIo.v | closed |
| `C04_read_completes` | PropsRpIo.v | closed |
| `C04_packet_reception_schedule_independent` | PropsRpIo.v | closed |
| `C04_packet_reception_completes` | PropsRpIo.v | closed |
| `C05_write_sends_prefix` | PropsRpIo.v | closed |
| `C05_write_fails_only_on_error` | PropsRpIo.v | closed |
| `C05_write_completes` | PropsRpIo.v | closed |
| `C06_own_response` | PropsRpSlots.v | closed |
| `C06_no_failure` | PropsRpSlots.v | closed |
| `C06_response_not_lost` | PropsRpSlots.v | closed |
| `C07_capability_negotiation` | PropsRpProto.v | closed |
| `C07_capability_first_hello` | PropsRpProto.v | closed |
| `C08_remote_equals_local` | PropsRpMem.v | closed |
| `C08_remote_memory` | PropsRpMem.v | closed |
| `C08_byte_enables_refused` | PropsRpMem.v | closed |
| `C09_response_classes` | PropsRpMem.v | closed |
| `C09_failure_never_reported_as_success` | PropsRpMem.v | closed |
| `C10_chunks_tile` | PropsAligner.v | closed |
| `C11_chunks_within_limits` | PropsAligner.v | closed |
| `C12_transparent` | PropsAligner.v | closed |
| `C12_memory_prefix` | PropsAligner.v | closed |
| `C13_each_output_once` | PropsSplitter.v | closed |
| `C13_writes_same_data` | PropsSplitter.v | closed |
| `C13_ok_iff_all_ok` | PropsSplitter.v | closed |
| `C13_checked_reads_agree` | PropsSplitter.v | closed |
| `C13_always_completes` | PropsSplitter.v | closed |
| `C13_wire_splitter` | PropsSplitter.v | closed |
| `C14_wrap_expanded_partial` | PropsWrap.v | closed |
| `C14_wrap_effect_partial` | PropsWrap.v | closed |
| `C14_wrap_touches_block` | PropsWrap.v | closed |
| `C14_plain_unchanged` | PropsWrap.v | closed |
| `C14_single_payload_refuted` | PropsWrap.v | closed |
| `C15_exclusive_write_partial` | PropsExmon.v | closed |
| `C15_aligned_blocks_partial` | PropsExmon.v | closed |
| `C15_others_forwarded` | PropsExmon.v | closed |
| `C15_overlap_refuted` | PropsExmon.v | closed |
| `C16_routed_partial` | PropsIconnect.v | closed |
| `C16_map_accepted` | PropsIconnect.v | closed |
| `C16_unique_region_partial` | PropsIconnect.v | closed |
| `C16_no_region_refuted` | PropsIconnect.v | closed |
| `C16_address_not_restored_refuted` | PropsIconnect.v | closed |
| `C17_bits_after_history` | PropsRegapi.v | closed |
| `C17_bad_accesses` | PropsRegapi.v | closed |
| `C18_clearing_partial` | PropsRegapi.v | closed |
| `C18_cor_returned_refuted` | PropsRegapi.v | closed |
| `C18_w1c_zero_refuted` | PropsRegapi.v | closed |
| `C19_mask32` | PropsRegapi.v | closed |
| `C19_mask64` | PropsRegapi.v | closed |
| `C19_field32` | PropsRegapi.v | closed |
| `C19_deposit_partial` | PropsRegapi.v | closed |
| `C19_extract_deposit_partial` | PropsRegapi.v | closed |
| `C19_deposit_extract` | PropsRegapi.v | closed |
| `C19_deposit_spills_refuted` | PropsRegapi.v | closed |
| `C19_buf_bv_roundtrip` | PropsRegapi.v | closed |
| `C20_crc_is_ieee` | PropsCrc.v | closed |
| `C20_crc_composes` | PropsCrc.v | closed |
| `C20_crc_detects_bursts` | PropsCrc.v | closed |
| `C21_copy_partial` | PropsGenattr.v | closed |
| `C21_clone` | PropsGenattr.v | closed |
| `C21_io_access_refuted` | PropsGenattr.v | closed |
| `C22_ids_unique_partial` | PropsTxnIds.v | closed |
| `C22_return_and_get` | PropsTxnIds.v | closed |
| `C22_two_waiters_refuted` | PropsTxnIds.v | closed |
| `C23_fill_tracking` | PropsCacheline.v | closed |
| `C23_status` | PropsCacheline.v | closed |
| `C23_flags` | PropsCacheline.v | closed |
| `C23_new_line` | PropsCacheline.v | closed |
| `C24_copy_partial` | PropsCdma.v | closed |
| `C24_overlap_refuted` | PropsCdma.v | closed |
| `C25_single_writer_partial` | PropsAce.v | closed |
| `C25_exclusive_refuted` | PropsAce.v | closed |
| `C26_loads_see_latest_partial` | PropsAce.v | closed |
| `C26_served_partial` | PropsAce.v | closed |
| `C26_exclusive_refuted` | PropsAce.v | closed |
| `C26_sparse_store_refuted` | PropsAce.v | closed |
| `C26_clean_invalid_refuted` | PropsAce.v | closed |
| `C26_write_through_refuted` | PropsAce.v | closed |
| `C26_secure_refuted` | PropsAce.v | closed |
| `C26_mixed_refuted` | PropsAce.v | closed |
| `C27_disjoint_partial` | PropsAce.v | closed |
| `C27_waiting_partial` | PropsAce.v | closed |
| `C27_order_partial` | PropsAce.v | closed |
| `C27_newcomer_partial` | PropsAce.v | closed |
| `C27_order_refuted` | PropsAce.v | closed |
| `C28_monitor_partial` | PropsAce.v | closed |
| `C28_unaligned_refuted` | PropsAce.v | closed |
| `C28_evicted_refuted` | PropsAce.v | closed |
| `C28_lost_refuted` | PropsAce.v | closed |
| `C29_incr_partial` | PropsTlm2Axi.v | closed |
| `C29_fixed_partial` | PropsTlm2Axi.v | closed |
| `C29_wrap_partial` | PropsTlm2Axi.v | closed |
| `C29_wide_refuted` | PropsTlm2Axi.v | closed |
| `C29_fixed_unaligned_refuted` | PropsTlm2Axi.v | closed |
| `C29_fixed_narrow_refuted` | PropsTlm2Axi.v | closed |
| `C29_fixed_enables_refuted` | PropsTlm2Axi.v | closed |
| `C29_wrap_narrow_refuted` | PropsTlm2Axi.v | closed |
| `C29_wrap_beats_refuted` | PropsTlm2Axi.v | closed |
| `C30_incr_partial` | PropsTlm2Axi.v | closed |
| `C30_fixed_partial` | PropsTlm2Axi.v | closed |
| `C30_wrap_partial` | PropsTlm2Axi.v | closed |
| `C30_memory` | PropsTlm2Axi.v | closed |
| `C30_error_refuted` | PropsTlm2Axi.v | closed |
| `C30_interleaving_refuted` | PropsTlm2Axi.v | closed |
| `C31_incr_write_partial` | PropsAxi2Tlm.v | closed |
| `C31_fixed_write_partial` | PropsAxi2Tlm.v | closed |
| `C31_wrap_write_partial` | PropsAxi2Tlm.v | closed |
| `C31_incr_read_partial` | PropsAxi2Tlm.v | closed |
| `C31_fixed_read_partial` | PropsAxi2Tlm.v | closed |
| `C31_wrap_read_partial` | PropsAxi2Tlm.v | closed |
| `C31_narrow_refuted` | PropsAxi2Tlm.v | closed |
| `C31_security_refuted` | PropsAxi2Tlm.v | closed |
| `C31_wrap_read_refuted` | PropsAxi2Tlm.v | closed |
| `C32_slave_partial` | PropsAxi2Tlm.v | closed |
| `C32_slave_refuted` | PropsAxi2Tlm.v | closed |
| `C32_ace_refuted` | PropsAxi2Tlm.v | closed |
| `C32_roundtrip_partial` | PropsTlm2Axi.v | closed |
| `C32_code` | PropsTlm2Axi.v | closed |
| `C32_stale_refuted` | PropsTlm2Axi.v | closed |
| `C33_order_partial` | PropsAxi2TlmSched.v | closed |
| `C33_page_partial` | PropsAxi2TlmSched.v | closed |
| `C33_once_partial` | PropsAxi2TlmSched.v | closed |
| `C33_progress_partial` | PropsAxi2TlmSched.v | closed |
| `C33_barrier_refuted` | PropsAxi2TlmSched.v | closed |
| `C33_write_responses_partial` | PropsTlm2Axi.v | closed |
| `C33_read_responses_partial` | PropsTlm2Axi.v | closed |
| `C34_wires_follow_posted` | PropsRpWires.v | closed |
| `C34_wires_follow_partial` | PropsRpWires.v | closed |
| `C34_lost_update_refuted` | PropsRpWires.v | closed |
| `C35_time_monotone_partial` | PropsRpTime.v | closed |
| `C35_account_reaches` | PropsRpTime.v | closed |
| `C35_repeated_sync_reaches` | PropsRpTime.v | closed |
| `C35_time_backwards_refuted` | PropsRpTime.v | closed |
| `C35_sync_short_refuted` | PropsRpTime.v | closed |
| `C36_ats_timestamp_refuted` | PropsRpProto.v | closed |
| `C37_io_access_refuted` | PropsRpMem.v | closed |
| `C37_attributes_partial` | PropsRpMem.v | closed |
| `C38_posted_write_partial` | PropsRpMem.v | closed |
| `C38_posted_status_refuted` | PropsRpMem.v | closed |
| `C39_ignore_desync_refuted` | PropsRpMem.v | closed |
| `C39_byte_enable_desync_refuted` | PropsRpMem.v | closed |
| `C40_expanded_still_wrapping_refuted` | PropsWrap.v | closed |
| `C41_success_not_visible_refuted` | PropsExmon.v | closed |
| `C42_dmi_partial` | PropsIconnect.v | closed |
| `C42_dmi_whole_region_refuted` | PropsIconnect.v | closed |
| `C42_dmi_shared_socket_refuted` | PropsIconnect.v | closed |
| `C43_debug_partial` | PropsIconnect.v | closed |
| `C43_debug_count_refuted` | PropsIconnect.v | closed |
| `C44_reset` | PropsRegapi.v | closed |
| `C45_byte_enables_refuted` | PropsRegapi.v | closed |
| `C45_ignore_command_refuted` | PropsRegapi.v | closed |
| `C46_errors_refuted` | PropsCdma.v | closed |
| `C46_register_range_refuted` | PropsCdma.v | closed |
| `C46_bad_accesses_partial` | PropsCdma.v | closed |
| `C47_incr_write_partial` | PropsAxi2Tlm.v | closed |
| `C47_fixed_write_partial` | PropsAxi2Tlm.v | closed |
| `C47_wrap_write_partial` | PropsAxi2Tlm.v | closed |
| `C47_incr_read` | PropsAxi2Tlm.v | closed |
| `C47_fixed_read` | PropsAxi2Tlm.v | closed |
| `C47_wrap_read` | PropsAxi2Tlm.v | closed |
| `C47_narrow_refuted` | PropsAxi2Tlm.v | closed |
| `C48_no_deadlock` | PropsAce.v | closed |
| `C49_hit_refuted` | PropsAce.v | closed |
| `C50_mii_transparent` | PropsPhy.v | closed |
| `C50_mii_any_preamble` | PropsPhy.v | closed |
| `C51_xgmii_transparent` | PropsPhy.v | closed |
| `C52_xgmii_1g_partial` | PropsPhy.v | closed |
| `C52_xgmii_runt_refuted` | PropsPhy.v | closed |
| `C52_xgmii_10g_refuted` | PropsPhy.v | closed |
| `C52_mii_refuted` | PropsPhy.v | closed |
| `C53_axis_transparent` | PropsAxis.v | closed |
| `C53_axis_all_delivered` | PropsAxis.v | closed |
| `C54_axis_boundary_refuted` | PropsAxis.v | closed |
| `C54_axis_boundary_bytes_refuted` | PropsAxis.v | closed |
| `C54_axis_waiting_target_refuted` | PropsAxis.v | closed |
| `C54_axis_empty_refuted` | PropsAxis.v | closed |
| `C55_wb_link` | PropsWb.v | closed |
| `C55_wb_transparent` | PropsWb.v | closed |
| `C56_wb_short_write_refuted` | PropsWb.v | closed |
| `C56_wb_empty_write_refuted` | PropsWb.v | closed |
| `C56_wb_unaligned_refuted` | PropsWb.v | closed |
| `C56_wb_overrun_refuted` | PropsWb.v | closed |
| `C56_wb_error_refuted` | PropsWb.v | closed |
| `C56_wb_attributes_refuted` | PropsWb.v | closed |
| `C57_native_memory` | PropsNative.v | closed |
| `C57_native_dmi` | PropsNative.v | closed |
| `C58_native_wrap_refuted` | PropsNative.v | closed |
| `C58_native_unchecked_refuted` | PropsNative.v | closed |
| `C58_native_ignore_refuted` | PropsNative.v | closed |
| `C59_apb_transfers` | PropsApb.v | closed |
| `C59_apb_refused` | PropsApb.v | closed |
| `C60_apb_delay_refuted` | PropsApb.v | closed |
| `C60_apb_concurrent_refuted` | PropsApb.v | closed |
| `C60_apb_ignore_refuted` | PropsApb.v | closed |
| `C61_lite_single` | PropsAxiLite.v | closed |
| `C61_lite_write` | PropsAxiLite.v | closed |
| `C61_lite_read` | PropsAxiLite.v | closed |
| `C61_lite_aligned` | PropsAxiLite.v | closed |
| `C62_lite_write_truncated_refuted` | PropsAxiLite.v | closed |
| `C62_lite_streaming_refuted` | PropsAxiLite.v | closed |
| `C62_lite_read_hangs_refuted` | PropsAxiLite.v | closed |
| `C62_lite_errors_lost_refuted` | PropsAxiLite.v | closed |
| `C62_lite_ignore_writes_refuted` | PropsAxiLite.v | closed |
| `C62_lite_zero_width_refuted` | PropsAxiLite.v | closed |
| `C63_request_packet` | PropsTlp.v | closed |
| `C63_write` | PropsTlp.v | closed |
| `C63_read_request` | PropsTlp.v | closed |
| `C63_completion_packet` | PropsTlp.v | closed |
| `C63_unaligned_refuted` | PropsTlp.v | closed |
| `C63_short_refuted` | PropsTlp.v | closed |
| `C63_byte_enable_refuted` | PropsTlp.v | closed |
| `C63_odd_length_refuted` | PropsTlp.v | closed |
| `C63_stops_refuted` | PropsTlp.v | closed |
| `C63_lower_address_refuted` | PropsTlp.v | closed |
| `C64_read_partial` | PropsTlp.v | closed |
| `C64_read_memory_partial` | PropsTlp.v | closed |
| `C64_long_read_refuted` | PropsTlp.v | closed |
| `C64_swapped_header_refuted` | PropsTlp.v | closed |
| `C64_crossing_refuted` | PropsTlp.v | closed |
| `C64_error_refuted` | PropsTlp.v | closed |
| `C65_request_packet` | PropsTlp.v | closed |
| `C65_completions` | PropsTlp.v | closed |
| `C65_other_completion` | PropsTlp.v | closed |
| `C65_status_refuted` | PropsTlp.v | closed |
| `C65_crossing_refuted` | PropsTlp.v | closed |
| `C65_long_refuted` | PropsTlp.v | closed |
| `C66_credit_rule` | PropsCxs.v | closed |
| `C66_reset_refuted` | PropsCxs.v | closed |
| `C67_control_word` | PropsCxs.v | closed |
| `C67_control_word_refuted` | PropsCxs.v | closed |
| `C67_receiver` | PropsCxs.v | closed |
| `C67_delivery` | PropsCxs.v | closed |
| `C67_progress` | PropsCxs.v | closed |
| `C67_reset_refuted` | PropsCxs.v | closed |
| `C68_receiver` | PropsCcix.v | closed |
| `C68_sender` | PropsCcix.v | closed |
| `C68_round_trip` | PropsCcix.v | closed |
| `C68_over_link` | PropsCcix.v | closed |
| `C68_address_refuted` | PropsCcix.v | closed |
| `C68_small_write_refuted` | PropsCcix.v | closed |
| `C68_odd_write_refuted` | PropsCcix.v | closed |
| `C68_lost_attributes_refuted` | PropsCcix.v | closed |
| `C68_misc_overlap_refuted` | PropsCcix.v | closed |
| `C68_payload_refuted` | PropsCcix.v | closed |
| `C69_returns` | PropsCcix.v | closed |
| `C69_zero_length_refuted` | PropsCcix.v | closed |
| `C69_request_chain_refuted` | PropsCcix.v | closed |
| `C69_snoop_chain_refuted` | PropsCcix.v | closed |
| `C70_total` | PropsChi.v | closed |
| `C70_content` | PropsChi.v | closed |
| `C70_state` | PropsChi.v | closed |
| `C70_data` | PropsChi.v | closed |
| `C70_told_partial` | PropsChi.v | closed |
| `C70_fwdstate_partial` | PropsChi.v | closed |
| `C70_told_refuted` | PropsChi.v | closed |
| `C70_fwdstate_refuted` | PropsChi.v | closed |
| `C71_coherent_partial` | PropsChi.v | closed |
| `C71_sequential_partial` | PropsChi.v | closed |
| `C71_default_refuted` | PropsChi.v | closed |
| `C71_forward_refuted` | PropsChi.v | closed |
| `C71_read_once_refuted` | PropsChi.v | closed |
| `C71_sparse_store_refuted` | PropsChi.v | closed |
| `C71_partial_line_refuted` | PropsChi.v | closed |
| `C71_upgrade_race_refuted` | PropsChi.v | closed |
| `C71_window_refuted` | PropsChi.v | closed |
| `C72_shared_partial` | PropsChi.v | closed |
| `C72_memory_partial` | PropsChi.v | closed |
| `C72_one_owner_refuted` | PropsChi.v | closed |
| `C73_served_partial` | PropsChi.v | closed |
| `C73_sequential_partial` | PropsChi.v | closed |
| `C73_no_deadlock_partial` | PropsChi.v | closed |
| `C73_write_unique_refuted` | PropsChi.v | closed |
| `C73_read_once_refuted` | PropsChi.v | closed |
| `C74_delivery_partial` | PropsMcdma.v | closed |
| `C74_progress_partial` | PropsMcdma.v | closed |
| `C74_tolerates` | PropsMcdma.v | closed |
| `C74_long_refuted` | PropsMcdma.v | closed |
| `C74_bus_error_refuted` | PropsMcdma.v | closed |
| `C74_leftover_refuted` | PropsMcdma.v | closed |
| `C75_receive_partial` | PropsMcdma.v | closed |
| `C75_overwrite_refuted` | PropsMcdma.v | closed |
| `C75_resume_refuted` | PropsMcdma.v | closed |
| `C75_long_refuted` | PropsMcdma.v | closed |
| `C76_lines_partial` | PropsMcdma.v | closed |
| `C76_complete` | PropsMcdma.v | closed |
| `C76_acknowledge_first` | PropsMcdma.v | closed |
| `C76_reset_refuted` | PropsMcdma.v | closed |
| `C76_intr_write_refuted` | PropsMcdma.v | closed |
| `C76_ack_refuted` | PropsMcdma.v | closed |
| `C77_start_partial` | PropsMcdma.v | closed |
| `C77_last_refuted` | PropsMcdma.v | closed |
| `C77_lost_refuted` | PropsMcdma.v | closed |
| `C77_order_refuted` | PropsMcdma.v | closed |
| `C78_exact` | PropsAxiChk.v | closed |
| `C78_errors` | PropsAxiChk.v | closed |
| `C78_depth_refuted` | PropsAxiChk.v | closed |
| `C79_accepts_partial` | PropsAxiChk.v | closed |
| `C79_detects_partial` | PropsAxiChk.v | closed |
| `C79_long_refuted` | PropsAxiChk.v | closed |
| `C79_default_refuted` | PropsAxiChk.v | closed |
| `C79_order_refuted` | PropsAxiChk.v | closed |
| `C80_strobe_partial` | PropsAxiChk.v | closed |
| `C80_wrap_refuted` | PropsAxiChk.v | closed |
| `C80_fixed_refuted` | PropsAxiChk.v | closed |
| `C80_wide_refuted` | PropsAxiChk.v | closed |
| `C81_address` | PropsAxiChk.v | closed |
| `C82_exact_partial` | PropsAxiChk.v | closed |
| `C82_axi3_refuted` | PropsAxiChk.v | closed |
| `C83_accepts` | PropsAxiChk.v | closed |
| `C83_detects_partial` | PropsAxiChk.v | closed |
| `C83_back_to_back_refuted` | PropsAxiChk.v | closed |
| `C84_release` | PropsAxiChk.v | closed |
| `C84_power_on_refuted` | PropsAxiChk.v | closed |
| `C85_moves_partial` | PropsQdma.v | closed |
| `C85_ends` | PropsQdma.v | closed |
| `C85_bytes_refuted` | PropsQdma.v | closed |
| `C85_concurrent_refuted` | PropsQdma.v | closed |
| `C86_poll_partial` | PropsQdma.v | closed |
| `C86_pidx_refuted` | PropsQdma.v | closed |
| `C86_error_bit_refuted` | PropsQdma.v | closed |
| `C87_command` | PropsQdma.v | closed |
| `C87_readback` | PropsQdma.v | closed |
| `C87_index_refuted` | PropsQdma.v | closed |
| `C87_door_refuted` | PropsQdma.v | closed |
| `C88_readonly` | PropsQdma.v | closed |
| `C88_register_partial` | PropsQdma.v | closed |
| `C88_short_refuted` | PropsQdma.v | closed |
| `C88_range_refuted` | PropsQdma.v | closed |
| `C89_random_partial` | PropsTg.v | closed |
| `C89_init_partial` | PropsTg.v | closed |
| `C89_mask_refuted` | PropsTg.v | closed |
| `C89_zero_refuted` | PropsTg.v | closed |
| `C89_limits_partial` | PropsTg.v | closed |
| `C89_limits_refuted` | PropsTg.v | closed |
| `C89_width_refuted` | PropsTg.v | closed |
| `C89_init_refuted` | PropsTg.v | closed |
| `C90_list_partial` | PropsTg.v | closed |
| `C90_checks` | PropsTg.v | closed |
| `C90_region_refuted` | PropsTg.v | closed |
| `C91_batches_partial` | PropsTg.v | closed |
| `C91_ends` | PropsTg.v | closed |
| `C91_lost_refuted` | PropsTg.v | closed |
| `C91_callback_refuted` | PropsTg.v | closed |
| `C92_rsp` | PropsChiFlit.v | closed |
| `C92_snp` | PropsChiFlit.v | closed |
| `C92_checker_snp_refuted` | PropsChiFlit.v | closed |
| `C92_req_partial` | PropsChiFlit.v | closed |
| `C92_req_refuted` | PropsChiFlit.v | closed |
| `C92_size_refuted` | PropsChiFlit.v | closed |
| `C92_dat_partial` | PropsChiFlit.v | closed |
| `C92_overread_refuted` | PropsChiFlit.v | closed |
| `C92_overrun_refuted` | PropsChiFlit.v | closed |
| `C92_beats_refuted` | PropsChiFlit.v | closed |
| `C92_rsvdc_refuted` | PropsChiFlit.v | closed |
| `C92_default_refuted` | PropsChiFlit.v | closed |
| `C93_credits` | PropsChiLink.v | closed |
| `C93_delivery_partial` | PropsChiLink.v | closed |
| `C93_progress` | PropsChiLink.v | closed |
| `C93_deactivates` | PropsChiLink.v | closed |
| `C93_return_refuted` | PropsChiLink.v | closed |
| `C93_reset_refuted` | PropsChiLink.v | closed |
| `C93_reset_pending_refuted` | PropsChiLink.v | closed |
| `C94_start` | PropsChiLink.v | closed |
| `C94_stop` | PropsChiLink.v | closed |
| `C94_settles_refuted` | PropsChiLink.v | closed |
| `C95_responses` | PropsLiteChk.v | closed |
| `C95_handshakes` | PropsLiteChk.v | closed |
| `C95_conform_partial` | PropsLiteChk.v | closed |
| `C95_early_data_refuted` | PropsLiteChk.v | closed |
| `C95_early_answer_refuted` | PropsLiteChk.v | closed |
| `C95_unasked_refuted` | PropsLiteChk.v | closed |
| `C95_stable_partial` | PropsLiteChk.v | closed |
| `C95_accepts` | PropsLiteChk.v | closed |
| `C95_default` | PropsLiteChk.v | closed |
| `C95_enable_all_refuted` | PropsLiteChk.v | closed |
| `C95_switches` | PropsLiteChk.v | closed |
| `C95_handshake_setter_refuted` | PropsLiteChk.v | closed |
| `C96_sends_partial` | PropsMrmac.v | closed |
| `C96_runt_refuted` | PropsMrmac.v | closed |
| `C96_disable_refuted` | PropsMrmac.v | closed |
| `C96_reset_refuted` | PropsMrmac.v | closed |
| `C96_overflow_refuted` | PropsMrmac.v | closed |
| `C97_statistics_partial` | PropsMrmac.v | closed |
| `C97_read` | PropsMrmac.v | closed |
| `C97_adds_up` | PropsMrmac.v | closed |
| `C97_read_tick_refuted` | PropsMrmac.v | closed |
| `C97_counter` | PropsMrmac.v | closed |
| `C97_write_refuted` | PropsMrmac.v | closed |
| `C97_saturate_refuted` | PropsMrmac.v | closed |
| `C98_right` | PropsMrmac.v | closed |
| `C98_delivers_partial` | PropsMrmac.v | closed |
| `C98_inserted` | PropsMrmac.v | closed |
| `C98_delete_refuted` | PropsMrmac.v | closed |
| `C98_burst_refuted` | PropsMrmac.v | closed |
| `C98_short_refuted` | PropsMrmac.v | closed |
| `C98_width_refuted` | PropsMrmac.v | closed |
| `C99_store_load_partial` | PropsSn.v | closed |
| `C99_swap` | PropsSn.v | closed |
| `C99_compare` | PropsSn.v | closed |
| `C99_operations_refuted` | PropsSn.v | closed |
| `C99_constants_refuted` | PropsSn.v | closed |
| `C99_compare_extent_refuted` | PropsSn.v | closed |
| `C100_read_partial` | PropsSn.v | closed |
| `C100_read_refuted` | PropsSn.v | closed |
| `C100_write` | PropsSn.v | closed |
| `C100_data_id_refuted` | PropsSn.v | closed |
| `C101_answers` | PropsSn.v | closed |
| `C101_dbid` | PropsSn.v | closed |
| `C101_data` | PropsSn.v | closed |
| `C101_prefetch_refuted` | PropsSn.v | closed |
| `C102_store_load_partial` | PropsAtom.v | closed |
| `C102_swap` | PropsAtom.v | closed |
| `C102_compare` | PropsAtom.v | closed |
| `C102_invalidates_partial` | PropsAtom.v | closed |
| `C102_endian_refuted` | PropsAtom.v | closed |
| `C102_dirty_refuted` | PropsAtom.v | closed |
| `C102_dirty_load_refuted` | PropsAtom.v | closed |
| `C102_clean_refuted` | PropsAtom.v | closed |
| `C102_unsnooped_refuted` | PropsAtom.v | closed |
| `C102_own_refuted` | PropsAtom.v | closed |
| `C102_packets_refuted` | PropsAtom.v | closed |
| `C103_store_partial` | PropsChiEx.v | closed |
| `C103_report` | PropsChiEx.v | closed |
| `C103_pair_partial` | PropsChiEx.v | closed |
| `C103_unaligned_refuted` | PropsChiEx.v | closed |
| `C103_displaced_refuted` | PropsChiEx.v | closed |
| `C103_hit_refuted` | PropsChiEx.v | closed |
| `C103_shared_refuted` | PropsChiEx.v | closed |
| `C103_reused_refuted` | PropsChiEx.v | closed |
| `C104_monitor_partial` | PropsChiEx.v | closed |
| `C104_others` | PropsChiEx.v | closed |
| `C104_load_refuted` | PropsChiEx.v | closed |
| `C104_failed` | PropsChiEx.v | closed |
| `C104_address_refuted` | PropsChiEx.v | closed |
| `C104_requester_refuted` | PropsChiEx.v | closed |
| `C104_plain_store_refuted` | PropsChiEx.v | closed |
| `C105_requests` | PropsCcixLink.v | closed |
| `C105_data_partial` | PropsCcixLink.v | closed |
| `C105_snoops_partial` | PropsCcixLink.v | closed |
| `C105_once` | PropsCcixLink.v | closed |
| `C105_progress_partial` | PropsCcixLink.v | closed |
| `C105_grants` | PropsCcixLink.v | closed |
| `C105_atomics_refuted` | PropsCcixLink.v | closed |
| `C105_snoops_refuted` | PropsCcixLink.v | closed |
| `C105_header_refuted` | PropsCcixLink.v | closed |
| `C106_filter` | PropsCcixHome.v | closed |
| `C106_holders_partial` | PropsCcixHome.v | closed |
| `C106_once_partial` | PropsCcixHome.v | closed |
| `C106_waits_partial` | PropsCcixHome.v | closed |
| `C106_two_agents_refuted` | PropsCcixHome.v | closed |
| `C106_wrong_entry_refuted` | PropsCcixHome.v | closed |
| `C106_again_refuted` | PropsCcixHome.v | closed |
| `C106_no_agent_refuted` | PropsCcixHome.v | closed |
| `C107_complete_partial` | PropsAceDvm.v | closed |
| `C107_rest_partial` | PropsAceDvm.v | closed |
| `C107_message_partial` | PropsAceDvm.v | closed |
| `C107_busy_refuted` | PropsAceDvm.v | closed |
| `C107_alone_refuted` | PropsAceDvm.v | closed |
| `C107_sender_refuted` | PropsAceDvm.v | closed |
| `C108_write_partial` | PropsHsc.v | closed |
| `C108_refuses` | PropsHsc.v | closed |
| `C108_past_end_refuted` | PropsHsc.v | closed |
| `C108_narrow_write_refuted` | PropsHsc.v | closed |
| `C108_digest_partial` | PropsHsc.v | closed |
| `C108_key_overlap_refuted` | PropsHsc.v | closed |
| `C108_keys_hidden_partial` | PropsHsc.v | closed |
| `C108_reset` | PropsHsc.v | closed |
| `C109_frame_partial` | PropsHsc.v | closed |
| `C109_roundtrip_partial` | PropsHsc.v | closed |
| `C109_suite256_refuted` | PropsHsc.v | closed |
| `C109_suite_xpn128_refuted` | PropsHsc.v | closed |
| `C109_an_refuted` | PropsHsc.v | closed |
| `C109_short_length_refuted` | PropsHsc.v | closed |
| `C109_offset50_refuted` | PropsHsc.v | closed |
| `C109_offset30_short_refuted` | PropsHsc.v | closed |
| `C109_sa_refuted` | PropsHsc.v | closed |
| `C109_split_packet_refuted` | PropsHsc.v | closed |
| `C109_bypass_refuted` | PropsHsc.v | closed |
| `C109_decode_short_refuted` | PropsHsc.v | closed |
| `C110_write_partial` | PropsHwAxi.v | closed |
| `C110_unaligned_refuted` | PropsHwAxi.v | closed |
| `C110_crossing_refuted` | PropsHwAxi.v | closed |
| `C110_read` | PropsHwAxi.v | closed |
| `C110_descriptor` | PropsHwAxi.v | closed |
| `C110_refused` | PropsHwAxi.v | closed |
| `C110_beats` | PropsHwAxi.v | closed |
| `C110_no_aligner_refuted` | PropsHwAxi.v | closed |
| `C110_secure_refuted` | PropsHwAxi.v | closed |
| `C110_qos_partial` | PropsHwAxi.v | closed |
| `C110_qos_refuted` | PropsHwAxi.v | closed |
| `C111_settled` | PropsHwWires.v | closed |
| `C111_progress` | PropsHwWires.v | closed |
| `C111_no_ghosts` | PropsHwWires.v | closed |
| `C111_wakes` | PropsHwWires.v | closed |
| `C111_pulse_refuted` | PropsHwWires.v | closed |
| `C112_write_partial` | PropsHwSlv.v | closed |
| `C112_single_beat` | PropsHwSlv.v | closed |
| `C112_single_read_refuted` | PropsHwSlv.v | closed |
| `C112_read_data` | PropsHwSlv.v | closed |
| `C112_read_length_partial` | PropsHwSlv.v | closed |
| `C112_fixed_read_refuted` | PropsHwSlv.v | closed |
| `C112_wrap_partial` | PropsHwSlv.v | closed |
| `C112_wrap_refuted` | PropsHwSlv.v | closed |
| `C112_responses` | PropsHwSlv.v | closed |
| `C113_write` | PropsVfio.v | closed |
| `C113_read` | PropsVfio.v | closed |
| `C113_single` | PropsVfio.v | closed |
| `C113_touches` | PropsVfio.v | closed |
| `C113_refused` | PropsVfio.v | closed |
| `C113_range_refuted` | PropsVfio.v | closed |
| `C113_big_endian_refuted` | PropsVfio.v | closed |
| `C113_dmi` | PropsVfio.v | closed |
| `C113_dmi_refuted` | PropsVfio.v | closed |
| `C113_buffers` | PropsVfio.v | closed |
| `C113_unmap_refuted` | PropsVfio.v | closed |
| `C113_seen` | PropsVfio.v | closed |
| `C113_pulse` | PropsVfio.v | closed |
| `C113_acked` | PropsVfio.v | closed |
| `C113_long_refuted` | PropsVfio.v | closed |
| `C113_once` | PropsVfio.v | closed |
| `C114_books` | PropsHwDesc.v | closed |
| `C114_process` | PropsHwDesc.v | closed |
| `C114_held` | PropsHwDesc.v | closed |
| `C114_all_at_once` | PropsHwDesc.v | closed |
| `C114_sleep` | PropsHwDesc.v | closed |
| `C114_thread` | PropsHwDesc.v | closed |
| `C114_starts` | PropsHwDesc.v | closed |
| `C114_forgotten_refuted` | PropsHwDesc.v | closed |
| `C114_kept_refuted` | PropsHwDesc.v | closed |
