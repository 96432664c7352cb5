# Formal model of libosmo-abis in Coq 8.16.1

## Layout

`rocq/theories/`
- `Base.v` — bits, checked array access (`None` = access outside the C object), list lemmas.
- `*Model.v` — definitions only; every definition cites the file and lines of /repo it models.
- `*Spec.v` — the small independent vocabulary the theorems are stated with.
- `*Proofs.v` — lemmas.
- `*Props.v` — the property theorems (`Cnn_...`), each with a non-vacuity `Example` and `Print Assumptions`.

## Conventions

- `ubit_t` buffers are lists of `bool`: the API contract is that a ubit is 0 or 1. Bytes are `Z` in 0..255 (or lists of 8 bools where only bits matter).
- C arrays have their declared size; each access is bounds-checked in the model and an access outside the object yields `None` ("undefined behaviour"). Memory-safety theorems say the result is never `None`. 
- `OSMO_ASSERT` failure is modelled as `None` as well.
- Errors are the C return codes as `Z` (`-EINVAL = -22`, ...).
- Callbacks are modelled as a trace (list of outputs) returned by the function.
- `malloc`/`talloc`/`msgb_alloc` are assumed to succeed unless said otherwise. Logging is not modelled.
- Properties that the code violates are proved in the negative (`..._refuted`), with a concrete reachable witness, beside the strongest positive part (`..._partial`).

## Trusted base

Coq's kernel (including the `vm_compute` conversion machine); the reading of the C code into the `*Model.v` files; behaviour of libosmocore functions used by the code, re-implemented in the model from their documentation (`osmo_pbit2ubit(_ext)`, `osmo_ubit2pbit(_ext)`, `osmo_crc8gen/16gen`, `llist`, `msgb`, `osmo_fsm`, use counts). Theorems use no axioms: `Print Assumptions` reports "Closed under the global context" for each; `coqchk` additionally lists seven `Coq.ssr.ssrunder.Under_rel.*` constants, parameters of a module type of the standard library that is loaded with it, on which no theorem here depends (the list is in the build log; `rocq/theories/*Props.v` end with the commands).

## What is modelled, what is not

| file in /repo | model | left out |
|---|---|---|
| src/trau/csd_ra2.c, csd_raa_prime / raa_prime_encode.c / raa_prime_decode.c | RaaModel.v, all functions | — |
| src/trau_frame.c | OldTrauModel.v, all functions | logging |
| src/subchan_demux.c, src/trau_mux.c | DemuxModel.v (demux, mux, queues) | trau_mux.c's upqueue entries that only print |
| src/trau/trau_frame.c | TrauModel.v, encoder and decoder of every 16k and 8k type | logging |
| src/trau/trau_rtp_conv.c | RtpModel.v (control bits and parity: RtpCtlProps.v) | libosmocodec (SID classification, ECU, HR codec): parameters with stated laws (`hr_codec_law`, `codec_ok`); uninitialised stack octets are an oracle argument |
| src/trau/trau_sync.c | SyncModel.v (sync pattern tables against the frame figures: SyncPatProps.v) ; SyncReModel.v: callbacks that change the patterns | bits delivered from within the frame callback |
| src/input/ipa_keepalive.c | KeepaliveModel.v, and two connected instances in KaPairModel.v, with libosmocore's FSM core as documented | — |
| src/input/lapd.c | LapdModel.v | libosmocore's LAPD core is the environment (arbitrary callbacks on live links); pcap writes (C49), logging; its end is in LapdFreeModel.v (C80) |
| src/e1_input.c and the signalling/raw/HDLC write cycle of src/input/{dahdi,misdn,e1d}.c | E1Model.v: lines, clones, use counts, counters, timeslots, links, rx/tx; SigModel.v: LAPD reception, data link primitives, TEI signals ; DrvModel.v: driver registry, line creation; SignListModel.v: the link lists as memory; ShareModel.v: memory shared with copies; PaceModel.v: the transmit delay in time | VTY (C68), pcap writing (C49), line alarms of other drivers, the sub-channel contents of TRAU and I.460 timeslots (C05-C13), failing write() |
| src/input/unixsocket.c | UnixModel.v, all functions | one line; the LAPD instance and the kernel are the environment; logging, out of memory |
| src/input/lapd_pcap.c, PCAP part of src/e1_input.c | PcapModel.v, all functions | little-endian host; logging |
| src/ipa_proxy.c | ProxyModel.v: instance and route commands, accept, both forwarding callbacks; ProxyVtyModel.v: command syntax, show and write commands | command abbreviations, allocation failures in the commands; sockets are src/input/ipa.c (C41, C42); an accepted connection whose destination cannot be reached is in IpaLinkModel.v (C72) |
| src/input/ipa.c | IpaModel.v: client and server connections, CCM handler's effect on the connection; IpaWriteModel.v: a write_cb of the application's; IpaLinkModel.v: listening socket (ipa_server_link_*) | ipa_msg_recv_buffered of libosmocore (environment), logging |
| src/trau/trau_pcu_ericsson.c | ErModel.v, encoder and decoder, 16k and 64k | logging; a little-endian host is assumed for integers read through octet pointers |
| src/input/ipaccess.c, BSC side | IpaccessModel.v: accept of OML and RSL, ID exchange, attach of RSL, read/write callbacks, drop, keepalive supervision; IpaStartModel.v: line update and socket options | contents of the ID response (parsed TRX is an input), signals, logging; libosmo-netif stream server and libosmocore FSM as documented; application callbacks are trees of API calls |
| src/input/ipaccess.c, BTS side | IpaccessBtsModel.v: line update, RSL connect/close, stream callbacks, identification, keepalive, transmission and reception, closing of links; timeslot numbers of the older interface | signals, socket options, use count of the line (the application's), logging except where it reads a null pointer, allocation failures; libosmo-netif's stream client (later than 1.5.0) as documented: closing an open client with reconnecting disabled calls the disconnect callback, destroying frees after the callbacks; osmo_fsm_inst_dispatch(NULL) is harmless |
| src/input/e1d.c | E1dModel.v: state machine, line update, read and write callbacks, LAPD write, Sa bits; E1dEvtModel.v: line events | destruction of lines, the message leaked on a failed read, logging, allocation failures; libosmo-octoi / osmo-e1d client library and kernel as an arbitrary environment |
| src/input/dahdi.c | DahdiModel.v: span table, line update, all read, write and event callbacks, LAPD write | dahdi_vty_show, destruction of lines, DAHDI_SPECIFY as part of open, logging, allocation failures; the kernel as an arbitrary environment |
| src/input/misdn.c | MisdnModel.v: line update, all read, write and indication callbacks, both variants of LAPD | e1inp_misdn_init, the ioctls that look for the card (one answer), destruction of lines, logging, allocation failures; the kernel as an arbitrary environment |
| src/input/rs232.c | Rs232Model.v: setup, reading with its state machine, writing, line update | termios settings beyond their order, logging, allocation failures |
| src/e1_input_vty.c | VtyModel.v: parsing of command lines, all configuration commands, e1inp_config_write, reading at start, show e1_line / e1_timeslot | node handling and abbreviations of libosmovty, the attributes, show e1_driver, allocation failures |
| src/trau/osmo_ortp.c | OrtpModel.v: creation, binding, connecting, sending, skipping, polling, select loop callbacks, freeing; OrtpQueryModel.v: descriptors, address queries, priority, statistics | osmo_rtp_init, log_stats, setters passed on to libortp, allocation failures; libortp as an arbitrary environment |

## Plan per property

- **C01 RA2 rate adaption is lossless and fills unused bits with 1.** RaModel.v models the four pack/unpack loops over lists of bits; list induction.
- **C02 A-TRAU (RAA') encode/decode round trip.** RaaModel.v models find_z_seqs, encode_zsp, atrau_pack_subframe, decode_zsp, decode_subframe with bounds-checked array primitives. Round trip by an invariant relating the greedy zero-run split of the 36 bits to the ZSP chain, for all inputs.
- **C03 A-TRAU frames never emulate the frame sync pattern.** Bound on zero runs of each 37-bit sub-block (leading, trailing, inner), composed over a frame and over the concatenation of frames.
- **C04 A-TRAU decoder is total, memory safe and rejects bad headers.** Decoder modelled in the checked-access monad (out-of-bounds = None); theorem: never None, for all 320-bit inputs.
- **C05 Sub-channel demultiplexer never overruns its frame buffer.** DemuxModel.v: byte-by-byte state machine with checked buffer writes; invariant out_idx < 320.
- **C06 Demultiplexer delivers exactly the aligned 320-bit frames of the sub-channel.** History invariant: buffer prefix = suffix of the received bits of the sub-channel.
- **C07 Demultiplexer result does not depend on how the byte stream is chunked.** fold over app.
- **C08 Demultiplexer sub-channels are independent.** Projection lemma: the 4-channel machine is the product of single-channel machines.
- **C09 Sub-channel activation API contract.** Case analysis on Z sub-channel number; negative numbers are undefined behaviour in C and outside the statement.
- **C10 Multiplexer emits the queued bits of each sub-channel in FIFO order, idle frames otherwise.** MuxModel.v; the queue is a list of bit lists; stream refinement by induction on the number of bytes.
- **C11 Multiplexer transmit queue is bounded and evicts oldest entries only.** Invariant over enqueue histories.
- **C12 Multiplexer never writes outside its per-byte bit buffer.** Checked writes into the 8-bit buffer; counterexample theorem (refuted for odd lengths) plus proof for even lengths.
- **C13 Multiplexer to demultiplexer end-to-end delivery.** Composition of C06 and C10.
- **C14 Legacy TRAU codec round trip.** OldTrauModel.v; symbolic evaluation for all bit vectors (bits as values of an arbitrary function of the index, kernel conversion).
- **C15 Legacy uplink-to-downlink conversion.** Case analysis.
- **C16 Legacy idle frame is a well-formed idle-speech frame.** Computation (a closed constant) plus C14's decoder.
- **C17 TRAU frame encoder respects the caller's buffer size.** TrauModel.v; checked writes.
- **C18 Encoded TRAU frames carry the frame synchronisation pattern of their type.** Symbolic evaluation against the sync patterns of trau_sync.c.
- **C19 16k TRAU codec round trip.** Symbolic evaluation per type; OAM is refuted (off-by-one).
- **C20 8k TRAU codec round trip.** Symbolic evaluation per type; AMR 6.7 is refuted.
- **C21 TRAU decoders are total and memory safe.** Checked reads in the model.
- **C22 Timing-alignment encoding stays in range.** lia over Z.
- **C23 FR speech TRAU<->RTP conversion is lossless.** RtpModel.v; table permutations, symbolic evaluation.
- **C24 EFR speech TRAU<->RTP conversion is lossless and CRC protected.** CRC as GF(2)-linear map, symbolic evaluation + linearity.
- **C25 HR speech TRAU<->RTP conversion is lossless.** Symbolic evaluation.
- **C26 CSD V.110 data TRAU<->RTP conversion is lossless.** Symbolic evaluation; error branches by case analysis.
- **C27 RTP conversions respect buffer sizes.** Case analysis on lengths.
- **C28 TRAU synchroniser delivers only whole frames and stays memory safe.** SyncModel.v: bit-at-a-time FSM; invariant on the history index.
- **C29 TRAU synchroniser output is chunking invariant.** fold over app.
- **C30 TRAU synchroniser acquires and keeps alignment.** Invariant over streams of frames; loss-after-three from a fresh start; stale error counter after a loss is stated as a refuted strengthening.
- **C31 IPA keep-alive: at most one outstanding PING and no activity after stop.** KeepaliveModel.v: event-trace semantics, safety invariant.
- **C32 IPA keep-alive: a silent peer is always detected, a live one never dropped.** Same model, response property.
- **C33 LAPD header encode/parse round trip.** LapdSpec.v (Q.921 layout by arithmetic) and LapdModel.v (the macros by bit operations); per-octet facts by kernel evaluation over all 256 values, lifted to frames with arbitrary payload.
- **C34 LAPD receive never reads beyond the message.** Checked reads; totality in every state reachable by a history (LapdProps.v).
- **C35 LAPD TEI and SAP tables hold unique entries.** Refinement: inst (lists) refines an abstract table (functions) through all histories; libosmocore data link core as environment: its callbacks are separate steps in any order.
- **C36 LAPD TEI management.** Model of lapd_tei_receive; duplicate assignment stated and refuted.
- **C37 E1 line lifetime follows its use count.** E1Model.v: all calls as steps of a world of lines; invariant LInv ties the use counts to the reference balance of the history.
- **C38 E1 signalling-link lookup and uniqueness.** Same model; invariant KH: link list of a timeslot = links made minus destroyed in the history, for histories that reconfigure only empty timeslots.
- **C39 E1 signalling transmit order.** Same; invariant KQ: submitted = transmitted ++ queue for every live link; starvation refuted for every length.
- **C40 E1 timeslot reconfiguration.** Same; type and emptiness after configuration proved; refusal with active links and TRAU->SIGN refuted.
- **C41 IPA connection transmit queue: FIFO, no loss.** IpaModel.v: client and server connection, one event or API call at a time, callbacks as lists of API calls; invariant queue = accepted minus removed; progress by induction on writable events; short write, EAGAIN and early send refuted.
- **C42 IPA connection state machine and lifetime.** IpaModel.v; the trace of every history follows a four-phase automaton; safety by an invariant; counterexamples for each usage rule.
- **C43 ip.access: timeslot/link addressing is a bijection.** IpaccessBtsModel.v: the timeslot/type/TRX functions of both interfaces; IpaccessBtsProps.v: bijection, identity in every history, refusal of numbers out of range (with error messages off; on, the message reads a null pointer: refuted).
- **C44 Ericsson PCU frames are laid out as documented.** ErModel.v, ErSpec.v (the figures in the source comments, transcribed cell by cell; CRC as polynomial division), ErProps.v, ErProps64.v; control part by symbolic evaluation, block part by list lemmas. Refuted: 0-cells at 16k, C8/PC at 64k.
- **C45 Ericsson CCU frames are accepted iff they are as documented, and then reported faithfully.** ErModel.v, ErSpec.v, ErDecProps.v, ErDecProps64.v, ErDecTop64.v: accepted iff the frame is one the figures describe, contents unique. Refuted: mean_bep lost, MCS-9 block wrong.
- **C46 IPA proxy forwards each stream to its configured peer stream.** ProxyModel.v, ProxyProofs.v, ProxyProps.v: objects in a store, undefined accesses None; invariant linking bit maps and stream tables to the list of configured routes (view); the exact identifier forwarded, symmetric case, and the translation case refuted for all states.
- **C47 IPA proxy configuration database is consistent.** The same invariant: counters, uniqueness, liveness of what routes refer to; effect of every command on the view; C47_defined: no undefined behaviour in safe histories, by the invariant that a listening socket refers to the oldest route of its pair. Nine refuted theorems for what is not so.
- **C48 Unix-socket driver: framing, connection handling, no stall.** UnixModel.v, UnixProps.v: trace of kernel calls against a specification of open and selected descriptors; induction over histories and over the connect answers. Refuted: datagrams above 1584 octets, use of the closed descriptor after a failed reconnect (descriptor 0 before the first connect), second update leaks, unbounded nesting, queued messages stall across a reconnect.
- **C49 PCAP captures are readable files holding exactly the signalling messages.** PcapModel.v, PcapProps.v: relational specification of the file format (proved unambiguous), invariant over capture histories. Refuted: packet type of the fake header, snaplen, short writes, clones, shutdown signal, same descriptor twice, late lines, double close in open.
- **C50 No signalling message is stalled.** E1WakeProofs.v: invariant KW (pending message implies write flag or timer pending), ranking function for the write cycle.
- **C51 The synchroniser accepts exactly the published patterns and locks onto the encoder's frames.** SyncPatProps.v: pattern tables reduced to (position, value) lists and compared with the published ones; streams via C18 and C30.
- **C52 Control bits of TRAU frames made from RTP say what the packet says.** RtpCtlProps.v: C bits by symbolic evaluation; parity as schoolbook polynomial division. Refuted: the idle code never reaches the line.
- **C53 ip.access BSC side: connections, lines and keepalive never dangle and close exactly once.** IpaccessModel.v: lines with use tokens, connections, keepalive machines, links; callbacks as trees of commands; undefined accesses None. IpaccessProofs.v: invariant Good (counts of holders equal the use counts, every reference alive), IpaccessProps.v: safety for every polite history, six counterexamples for the rules.
- **C54 ip.access BSC side: messages reach their link and their connection, in order.** The same model; trace theorems on the octets handed to the connections and on the link queues.
- **C55 ip.access BTS side: streams, keepalive and callbacks never dangle.** IpaccessBtsModel.v: state of a line (client table, streams, keepalive machines, links), callbacks as trees of commands, aborts and bad accesses as reasons. IpaccessBtsProofs.v: invariant Inv (structure always, one stream per timeslot for orderly histories); IpaccessBtsSpec.v: life-cycle automaton over the trace.
- **C56 ip.access BTS side: messages reach their link and their stream.** The same model; trace theorems on octets handed to the streams and messages delivered.
- **C57 osmo-e1d driver: descriptors and connection.** E1dModel.v: the driver with its state machine, descriptors and queues; daemon and kernel are arbitrary functions of a counter, application callbacks lists of commands. E1dSpec.v: life-cycle automaton of a descriptor over the trace. E1dProofs.v: per-function lemmas; E1dRunProofs.v: invariant over all histories.
- **C58 osmo-e1d driver: data path.** The same model; queue automaton over the trace, reception and progress theorems per step.
- **C59 TRAU frames have the published layout, bit by bit.** TrauFigures.v: the figures as lists of boxes, independent of the model. TrauFigProps.v: encoder and decoders of TrauModel.v evaluated on symbolic structs and buffers and compared with the figures by computation in the kernel; refutations by example.
- **C60 DAHDI driver: descriptors and channels.** DahdiModel.v: the driver; the kernel is a record of arbitrary functions of a counter. DahdiSpec.v: numbering of channels, life-cycle automaton of a descriptor, what is asked of kernel and application. DahdiProofs.v, DahdiRunProofs.v: invariants over all histories; DahdiProps.v. Remarks: e1inp_ts_config_sign leaves the transmit timer in the union as it finds it; the result of cleanup_e1inp_ts is ignored by all config functions.
- **C61 DAHDI driver: data path and alarms.** The same model; queue automaton over the trace, reception and transmission theorems per step, invariant for waiting messages.
- **C62 mISDN driver: sockets of the timeslots.** MisdnModel.v: the driver; the kernel is a record of arbitrary functions of a counter. MisdnSpec.v: what each type of timeslot is opened as, life-cycle automaton of a socket, what is asked of kernel and application. MisdnProofs.v, MisdnRunProofs.v, MisdnPoliteProofs.v: invariants over all histories; MisdnProps.v.
- **C63 mISDN driver: data path.** The same model; automata over the trace for queues, frames in flight and link addresses, reception and transmission theorems per step (MisdnDataProps.v).
- **C64 mISDN driver: alarms of the line.** The same model; defects and alarm as functions of the trace (MisdnDataProps.v).
- **C65 Serial port: framing.** Rs232Model.v: the serial port driver with its receive state machine; Rs232Spec.v: frames of an octet stream. Rs232Proofs.v: invariants; Rs232Props.v: reception is the parsing of the stream for any chunking, wire and round trip.
- **C66 Serial port: queue and setup.** The same model; the queue as a FIFO over the trace, one write per request (Rs232Props.v).
- **C67 RTP socket.** OrtpModel.v: the socket with libortp as arbitrary answers, the application's callback as any list of calls; OrtpSpec.v: clocks, select loop membership as functions of the trace. OrtpProps.v: invariant over all histories.
- **C68 Configuration by VTY.** VtyModel.v: words, numbers, the commands, writer and reader of the configuration as functions on strings. VtySpec.v: what a line's configuration is. VtyProofs.v: reading one printed line; VtyProps.v: invariants over all histories of commands.
- **C69 A call end to end.** E2eSpec.v: only the glue an application writes between the API calls of TrauModel.v, RtpModel.v and SyncModel.v, and which payload has to arrive. E2eProps.v: the receiver's conversion depends only on what the line carries (C19, C20), so the round trips C23-C26 survive the line; C51 and C29 give the frames; induction over the packets.
- **C70 A call through a sub-channel of a timeslot.** E2eMuxProps.v: composition of C69's sender and receiver with C13 (frames from the encoder carry the sync pattern, hence are clean) and C07; the idle frames the multiplexer inserts decode to a type the conversion refuses; counting bits bounds what is missing.
- **C71 Which transmission errors the CRCs let through.** CrcSpec.v: error patterns, sums of shifted copies of the polynomial. CrcProofs.v: theory of a shift register with feedback p (linear, the patterns that leave it empty are exactly the multiples of the polynomial, by induction on the length; bursts, two errors, parity). CrcProps.v: the CRC functions of RtpModel.v and ErModel.v are such registers; combined with the decoders' characterisations (C24, C25, C45).
- **C72 Listening IPA link.** IpaLinkModel.v: ipa_server_link_* and ipa_server_fd_cb over a table of open descriptors, the callback as a list of calls; ipa_sock_src_accept_cb. IpaLinkSpec.v: a judge over traces that says who broke a rule first (nobody, the application, the library). IpaLinkProofs.v: relation between the model's state and the judge's, preserved by every step.
- **C73 Putting ip.access lines into service at the BSC.** IpaStartModel.v: ipaccess_line_update for the BSC, update_fd_settings and the accept callbacks' socket set-up over the configuration state of VtyModel.v (C68). IpaStartProps.v: invariants over all histories of commands, updates, freed lines and connections.
- **C74 Configuration of the IPA proxy as text.** ProxyVtyModel.v: command syntax, atoi/strtoul, show and write commands of src/ipa_proxy.c over the state of ProxyModel.v (C46, C47), reading a text as at start. ProxyVtySpec.v: histories and what is configured. ProxyVtyProps.v: round trip by induction over the written lines, for all histories.
- **C75 Signalling links end to end over LAPD.** SigModel.v: e1inp_rx_ts_lapd, e1inp_dlsap_up, e1inp_event over E1Model.v (timeslot, links) and LapdModel.v (LAPD), two ends. SigSpec.v: what the application, the line and the data link core are assumed to do (the core of libosmocore is not modelled: it puts into I frames what it was given on that data link and indicates what came in I or UI frames of it). SigProofs.v: invariant of both ends over all histories (data links keep their address; frames on the wire carry messages sent on links of the frame's address), by refinement of the LAPD table of LapdSpec.v. SigProps.v: theorems and concrete runs.
- **C76 Line events of osmo-e1d reach the line.** E1dEvtModel.v: e1inp_port_find, e1d_client_event_cb, the interface and line number a line is opened at. E1dEvtProps.v: alarm state as the daemon's events and as the signals define it, theorems by induction over the history, refutations and a concrete run.
- **C77 Keep-alive between two peers in time.** KaPairModel.v: two instances of KeepaliveModel.v, the CCM part of the receivers, messages on their way with the time they were sent. KaPairProps.v: executions in which messages and timers are on time (specification), invariant: a PING outstanding since t0 has itself on its way or its PONG, sent by t0 + D; the monitor of KeepaliveProps.v for the silent peer; concrete runs for all hypotheses.
- **C78 The registry of E1 drivers and lines created by driver name.** DrvModel.v: the pointers of libosmocore's list, registration, lookup with an explicit number of steps, line creation. DrvProps.v: what every sequence of registrations leaves (specification: after), invariant over the pointers, non-termination as None for every number of steps.
- **C79 The GPRS uplink of an Ericsson Abis end to end.** E2eErProps.v: SyncModel.v and ErModel.v composed; what frames carry is ErSpec.v. Acquisition and keeping from C30, exactness of the decoder from C45, patterns from C51; the refutations by a run-length argument and by rotation of a periodic stream, for every length.
- **C80 The end of a LAPD instance.** LapdFreeModel.v: lapd_sap_free, lapd_tei_free, lapd_instance_free over LapdModel.v. LapdFreeProps.v: the links ended so far and those in the tables are, through every history, a permutation of all links made.
- **C81 Taking a line out of service.** DownMisdn.v, DownDahdi.v, DownE1d.v: the end of a line (e1inp_line_use_cb, which calls no driver) on top of the three driver models; proved from the invariants of C57, C60 and C62. The delay timer is covered for mISDN and DAHDI only.
- **C82 Abis over IP end to end.** E2eIpaModel.v: a BTS (IpaccessBtsModel.v) and a BSC (IpaccessModel.v) joined by the two octet streams of one TCP connection, cut into messages as libosmocore's osmo_ipa_segmentation_cb does (modelled from its documentation, trusted). E2eIpaProofs.v and E2eIpaBts.v: what one event adds to the output of either side; E2eIpaProps.v: the octets in transit are always the framed messages not yet handed over, by induction over the run.
- **C83 Signalling link lists as memory.** SignListModel.v: the list cells of timeslots and links as a heap of next and previous pointers, with llist_add_tail, llist_del_init, llist_empty and llist_for_each_entry of libosmocore's linuxlist.h (modelled, trusted). A cell that is no list (freed, never initialised, another member of the union) faults when touched. SignListSpec.v: the same operations on plain lists. SignListProofs.v: rings of cells represent lists, through every operation, by induction on the nesting of destroys. The allocator is assumed to hand out no address in use; links of a freed line cannot exist because each holds a reference.
- **C84 The transmit delay of signalling timeslots in time.** PaceModel.v: one signalling timeslot (the functions of E1Model.v) with a clock: the delay timer is called not before it is due. PaceSpec.v: a prompt host, spacing. PaceProps.v: invariant linking the last transmission to the timer, and a deadline that every event of a prompt history respects.
- **C85 The TRAU synchroniser recovers from any past.** SyncModel.v. SyncHealSpec.v: patterns in force after some calls, a clean run, the stale memory. SyncHealProofs.v: the window after a loss is exactly the stale part of the array (the oracle of SyncModel.v); from it the first match is the next frame boundary; a wrong alignment is lost after at most four cuts. SyncHealProps.v: the theorems over every reachable state; the refutation is a three-state invariant over an endless clean V.110 stream. The 1280-bit patterns, whose window after a loss also holds bits of the last frame, are not covered.
- **C86 The sub-channel demultiplexer recovers from any past.** DemuxModel.v. DemuxHealProps.v: the frames of a stream followed by a clean run (induction over the bits of the run, on the stream vocabulary of DemuxSpec.v), composed with C06 and C13.
- **C87 Changing TRAU patterns from within the frame callback is safe, and takes effect at once only at a loss or the first frame.** SyncReModel.v: SyncModel.v with the callback run where the C code calls it (what follows works on the state it left; which loop runs is fixed at dispatch). Invariant of one pass of either loop, also in the stale state of a late change; conservativity over SyncModel.v carries C85 over.
- **C88 A call over two DAHDI spans arrives intact.** E2eDahdiProps.v: induction over the blocks with C61_tx_trau (reversed bits and the multiplexer's buffer of this very moment), reversal twice is the identity on octets, then C86_call_after_any_past. The line between the spans (blocks whole and in order) is a hypothesis.
- **C89 A call over two lines of osmo-e1d, or two mISDN lines, arrives intact.** E2eLineProps.v, E2eMisdnProps.v: as C88; for osmo-e1d the octets written are now part of the model (E1dModel.v, DTrau) and C58_trau states them; induction over the blocks, then C86_call_after_any_past. The line (blocks whole and in order) is a hypothesis, and that the timeslot's multiplexer is the one of the call.
- **C90 RTP socket addresses, priority and statistics are those of the session's own sockets.** OrtpQueryModel.v: which descriptors the library holds for each of any number of sockets, the static address buffer, the queries; the environment's answers are in the events. OrtpQuerySpec.v reads the history of calls. OrtpQueryProps.v: induction over the history; the three refuted cases are theorems of their own (C90_unbound_refuted, C90_rebind_refuted, C90_text_refuted).
- **C91 Counters and driver data shared by a line and its copies behave as if never freed, and are freed in time.** ShareModel.v: talloc objects with parent and references, e1inp_line_create / _clone / _use_cb on them, libosmocore's list of counter groups. ShareSpec.v: the same calls in a world that never frees. ShareProps.v: refinement by an invariant (parent and references of an object are exactly the lines that point to it); the refusing driver is C91_refused_refuted.
- **C92 A client connection with the application's own write callback leaves sending to it.** IpaWriteModel.v: ipa_client_fd_cb with the application's write callback in place of the default one, over IpaModel.v's connection. IpaWriteProps.v: queue relation by induction over the history; the calls of the callback counted per event.
