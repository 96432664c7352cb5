{"id": "C01", "title": "RA2 rate adaption is lossless and fills unused bits with 1", "statement": "Packing any sequence of 8 kbit/s (or pairs of 16 kbit/s) bits into RA2 octets and unpacking them again returns the original bits; every octet produced has all its unused bits set to 1 and one octet is produced per 1 (resp. 2) input bits.", "quantifier": "every bit sequence of every length", "why_tests_cant": "unbounded number of lengths and contents", "anchors": ["src/trau/csd_ra2.c:osmo_csd_ra2_8k_pack", "src/trau/csd_ra2.c:osmo_csd_ra2_8k_unpack", "src/trau/csd_ra2.c:osmo_csd_ra2_16k_pack", "src/trau/csd_ra2.c:osmo_csd_ra2_16k_unpack"]}
{"id": "C02", "title": "A-TRAU (RAA') encode/decode round trip", "statement": "For every 288-bit E-TRAU payload (M1, M2 and 8 groups of 36 D bits) and every C4/C5, the 320-bit A-TRAU frame produced by osmo_csd144_to_atrau_bits is accepted by osmo_csd144_from_atrau_bits, which returns exactly the same M1, M2, D bits, C4 and C5; the encoder writes exactly 320 bits and none of its assertions fires.", "quantifier": "all 2^288 payloads, all control-bit values", "why_tests_cant": "2^288 inputs; zero-sequence packing is data dependent", "anchors": ["src/trau/raa_prime_encode.c:osmo_csd144_to_atrau_bits", "src/trau/raa_prime_decode.c:osmo_csd144_from_atrau_bits"]}
{"id": "C03", "title": "A-TRAU frames never emulate the frame sync pattern", "statement": "In any stream made of back-to-back A-TRAU frames, the frame alignment pattern (16 zeros followed by a one) begins only at frame boundaries.", "quantifier": "every sequence of frames, every payload, every bit offset", "why_tests_cant": "depends on all data patterns and on all offsets across frame boundaries", "anchors": ["src/trau/raa_prime_encode.c:find_z_seqs", "src/trau/raa_prime_encode.c:encode_zsp", "src/trau/raa_prime_encode.c:osmo_csd144_to_atrau_bits"]}
{"id": "C04", "title": "A-TRAU decoder is total, memory safe and rejects bad headers", "statement": "For every 320-bit input the decoder terminates with 0 or an error, never reads or writes outside the frame, the sub-block and the output buffer, and never accepts a frame whose first 20 bits differ from the header pattern; an accepted frame always yields a 288-bit payload.", "quantifier": "all 2^320 inputs", "why_tests_cant": "adversarial line input; out-of-bounds pointers only appear for particular malformed ZSP chains", "anchors": ["src/trau/raa_prime_decode.c:decode_zsp", "src/trau/raa_prime_decode.c:decode_subframe", "src/trau/raa_prime_decode.c:osmo_csd144_from_atrau_bits"]}
{"id": "C05", "title": "Sub-channel demultiplexer never overruns its frame buffer", "statement": "Whatever bytes arrive on the timeslot and whatever channels are activated at whatever time, the demultiplexer's 320-bit sub-channel buffer is never written out of bounds.", "quantifier": "all byte streams, all activation schedules", "why_tests_cant": "unbounded histories", "anchors": ["src/subchan_demux.c:subch_demux_in", "src/subchan_demux.c:append_bit"]}
{"id": "C06", "title": "Demultiplexer delivers exactly the aligned 320-bit frames of the sub-channel", "statement": "Every frame delivered to the callback is 320 bits long, begins with the 16-zeros-then-one header, and equals the last 320 bits received on that sub-channel with the header as received.", "quantifier": "all byte streams", "why_tests_cant": "requires relating an unbounded input history to each callback", "anchors": ["src/subchan_demux.c:subch_demux_in", "src/subchan_demux.c:append_bit_resync_out"]}
{"id": "C07", "title": "Demultiplexer result does not depend on how the byte stream is chunked", "statement": "Feeding a byte stream in one call or in any number of consecutive calls produces the same sequence of callbacks (channel, bits) and the same final state.", "quantifier": "all byte streams and all ways of splitting them", "why_tests_cant": "exponentially many splittings", "anchors": ["src/subchan_demux.c:subch_demux_in"]}
{"id": "C08", "title": "Demultiplexer sub-channels are independent", "statement": "The frames delivered for one sub-channel are a function of that sub-channel's own two bits per byte; inactive sub-channels never produce a callback nor change state, and other channels' traffic or activation has no influence.", "quantifier": "all byte streams, all activity masks, all four sub-channels", "why_tests_cant": "universally quantified non-interference", "anchors": ["src/subchan_demux.c:subch_demux_in", "src/subchan_demux.c:subch_demux_activate"]}
{"id": "C09", "title": "Sub-channel activation API contract", "statement": "Activation/deactivation with a sub-channel number of 4 or more is refused with -EINVAL without changing anything; otherwise exactly the requested channel's activity changes and no receiver state does (in particular (re)activation does not restart reception, and neither does a second subch_demux_init).", "quantifier": "all demultiplexer states and sub-channel numbers", "why_tests_cant": "all states", "anchors": ["src/subchan_demux.c:subch_demux_activate", "src/subchan_demux.c:subch_demux_deactivate"]}
{"id": "C10", "title": "Multiplexer emits the queued bits of each sub-channel in FIFO order, idle frames otherwise", "statement": "For even-length entries, the sequence of bit pairs emitted for a sub-channel is exactly the concatenation of the entries enqueued on it, in order, with a complete idle frame inserted whenever the queue is empty; the four sub-channels do not influence each other.", "quantifier": "all queue contents, all numbers of output bytes", "why_tests_cant": "unbounded queues and outputs", "anchors": ["src/subchan_demux.c:subchan_mux_out", "src/subchan_demux.c:get_subch_bits", "src/subchan_demux.c:mux_output_byte"]}
{"id": "C11", "title": "Multiplexer transmit queue is bounded and evicts oldest entries only", "statement": "After any number of enqueue operations each sub-channel queue holds at most 3 entries; what remains is a suffix of what was queued, with the new entry last.", "quantifier": "all enqueue/output interleavings", "why_tests_cant": "unbounded histories", "anchors": ["src/subchan_demux.c:subchan_mux_enqueue", "src/subchan_demux.c:tx_queue_evict"]}
{"id": "C12", "title": "Multiplexer never writes outside its per-byte bit buffer", "statement": "As long as all enqueued bit strings have even length (TRAU frames do), producing output bytes never accesses memory outside the 8-bit working buffer, in any history; an odd-length string on sub-channel 3 makes it write past the buffer.", "quantifier": "all queue contents", "why_tests_cant": "odd-length entries only fail at particular alignments", "anchors": ["src/subchan_demux.c:get_subch_bits", "src/subchan_demux.c:mux_output_byte"]}
{"id": "C13", "title": "Multiplexer to demultiplexer end-to-end delivery", "statement": "A sequence of 320-bit frames that begin with the sync header and contain no earlier emulation of it, enqueued on a sub-channel and sent through the multiplexer into an activated demultiplexer, is delivered unchanged and in order.", "quantifier": "all frame sequences, all sub-channels", "why_tests_cant": "unbounded sequences and contents", "anchors": ["src/subchan_demux.c"]}
{"id": "C14", "title": "Legacy TRAU codec round trip", "statement": "For every legacy decoded TRAU frame of type FR/EFR/IDLE/DATA, encoding and decoding returns the same C, D, T (and S/M where applicable) bits; types the encoder does not support are refused with an error.", "quantifier": "all frame contents", "why_tests_cant": "2^300 inputs", "anchors": ["src/trau_frame.c:encode_trau_frame", "src/trau_frame.c:decode_trau_frame"]}
{"id": "C15", "title": "Legacy uplink-to-downlink conversion", "statement": "trau_frame_up2down turns every uplink speech/idle/data frame into the corresponding downlink type while leaving the D bits untouched, and refuses anything that is not an uplink frame.", "quantifier": "all decoded frames", "why_tests_cant": "all contents", "anchors": ["src/trau_frame.c:trau_frame_up2down"]}
{"id": "C16", "title": "Legacy idle frame is a well-formed idle-speech frame", "statement": "The idle frame used as filler is always 320 bits long, carries the full synchronisation pattern and decodes as the downlink idle-speech type.", "quantifier": "every call", "why_tests_cant": "static buffer shared by all callers", "anchors": ["src/trau_frame.c:trau_idle_frame"]}
{"id": "C17", "title": "TRAU frame encoder respects the caller's buffer size", "statement": "osmo_trau_frame_encode never writes beyond n_bits; if the buffer is smaller than the frame type can require, it returns an error before writing; on success it returns the number of bits of the frame, at most n_bits.", "quantifier": "all frame structs, all buffer sizes", "why_tests_cant": "all combinations of type, direction, timing values, sizes", "anchors": ["src/trau/trau_frame.c:osmo_trau_frame_encode"]}
{"id": "C18", "title": "Encoded TRAU frames carry the frame synchronisation pattern of their type", "statement": "Each successfully encoded frame contains the 08.60/08.61 synchronisation pattern for its type, so a synchronised receiver recognises it.", "quantifier": "all frame contents, all types", "why_tests_cant": "all contents", "anchors": ["src/trau/trau_frame.c:osmo_trau_frame_encode", "src/trau/trau_sync.c"]}
{"id": "C19", "title": "16k TRAU codec round trip", "statement": "For every frame type on 16k sub-slots, encoding then decoding returns the same frame type, direction and C/D/S/M/T bits (modulo the bits the encoder is documented to force).", "quantifier": "all frame contents per type and direction", "why_tests_cant": "2^300 inputs per type", "anchors": ["src/trau/trau_frame.c:osmo_trau_frame_encode", "src/trau/trau_frame.c:osmo_trau_frame_decode_16k"]}
{"id": "C20", "title": "8k TRAU codec round trip", "statement": "For every frame type on 8k sub-slots, encoding then decoding (same direction) returns the same frame type and contents.", "quantifier": "all frame contents per type and direction", "why_tests_cant": "2^160 inputs per type", "anchors": ["src/trau/trau_frame.c:osmo_trau_frame_encode", "src/trau/trau_frame.c:osmo_trau_frame_decode_8k"]}
{"id": "C21", "title": "TRAU decoders are total and memory safe", "statement": "The 16k and 8k decoders, given any 320-/160-bit frame, return a result without reading outside the input or writing outside the frame struct.", "quantifier": "all inputs and directions", "why_tests_cant": "adversarial line input", "anchors": ["src/trau/trau_frame.c:osmo_trau_frame_decode_16k", "src/trau/trau_frame.c:osmo_trau_frame_decode_8k"]}
{"id": "C22", "title": "Timing-alignment encoding stays in range", "statement": "Time-alignment requests yield only the code points of the 08.60/08.61 tables, and the number of bits added to or removed from a downlink frame stays within the documented limits for every requested timing offset.", "quantifier": "all integer microsecond values", "why_tests_cant": "all int values", "anchors": ["src/trau/trau_frame.c:encode16_handle_ta", "src/trau/trau_frame.c:trau_frame_16_ta_us", "src/trau/trau_frame.c:osmo_trau_frame_dl_ta_us"]}
{"id": "C23", "title": "FR speech TRAU<->RTP conversion is lossless", "statement": "Converting any 33-byte FR RTP payload to a TRAU frame and back yields the identical payload, and conversely for any good FR TRAU frame's D bits.", "quantifier": "all 2^260 speech frames", "why_tests_cant": "2^260 inputs; permutation tables", "anchors": ["src/trau/trau_rtp_conv.c:osmo_rtp2trau", "src/trau/trau_rtp_conv.c:osmo_trau2rtp"]}
{"id": "C24", "title": "EFR speech TRAU<->RTP conversion is lossless and CRC protected", "statement": "Converting any 31-byte EFR RTP payload to TRAU and back yields the identical payload; the five CRC groups generated are always accepted, and any single-bit error in a protected group is detected.", "quantifier": "all 2^244 speech frames, all error positions", "why_tests_cant": "2^244 inputs", "anchors": ["src/trau/trau_rtp_conv.c"]}
{"id": "C25", "title": "HR speech TRAU<->RTP conversion is lossless", "statement": "Converting any HR payload to a 16k or 8k TRAU frame and back yields the identical payload.", "quantifier": "all 2^112 speech frames", "why_tests_cant": "2^112 inputs", "anchors": ["src/trau/trau_rtp_conv.c"]}
{"id": "C26", "title": "CSD V.110 data TRAU<->RTP conversion is lossless", "statement": "For every intermediate rate (8k, 16k) and EDATA, converting V.110 D/S/X/E bits from TRAU to RFC 4040 RTP and back returns the same bits; misaligned or malformed RTP input produces an all-ones idle fill and never an out-of-bounds access.", "quantifier": "all frame contents and all RTP payloads", "why_tests_cant": "all contents", "anchors": ["src/trau/trau_rtp_conv.c"]}
{"id": "C27", "title": "RTP conversions respect buffer sizes", "statement": "osmo_trau2rtp returns exactly the payload length of the codec, or a negative error when the output buffer is too small, and never writes beyond the buffer; osmo_rtp2trau rejects payloads of unexpected length.", "quantifier": "all frames, lengths and buffer sizes", "why_tests_cant": "all sizes", "anchors": ["src/trau/trau_rtp_conv.c:osmo_trau2rtp", "src/trau/trau_rtp_conv.c:osmo_rtp2trau"]}
{"id": "C28", "title": "TRAU synchroniser delivers only whole frames and stays memory safe", "statement": "For any bit stream in any chunking, each delivered frame has exactly the pattern's length; the history buffer is never accessed out of bounds and no assertion fires.", "quantifier": "all bit streams, all chunkings, all patterns", "why_tests_cant": "unbounded histories", "anchors": ["src/trau/trau_sync.c:osmo_trau_sync_rx_ubits", "src/trau/trau_sync.c"]}
{"id": "C29", "title": "TRAU synchroniser output is chunking invariant", "statement": "Delivering a bit stream in any chunks produces the same sequence of deliveries and the same state.", "quantifier": "all streams and splits", "why_tests_cant": "exponentially many splittings", "anchors": ["src/trau/trau_sync.c:osmo_trau_sync_rx_ubits"]}
{"id": "C30", "title": "TRAU synchroniser acquires and keeps alignment", "statement": "From a fresh start a stream of well-formed frames is found at the first match and every following frame is delivered exactly once; alignment is declared lost only after three consecutive frames with pattern errors, reported once to the user.", "quantifier": "all frame sequences and contents", "why_tests_cant": "unbounded streams", "anchors": ["src/trau/trau_sync.c"]}
{"id": "C31", "title": "IPA keep-alive: at most one outstanding PING and no activity after stop", "statement": "In any history of start/stop/PONG/timer events the keep-alive machine sends a PING only when entering the waiting state, never sends a second PING before the first was answered or timed out, and after stop sends nothing and runs no timer until restarted.", "quantifier": "all event histories and parameter values", "why_tests_cant": "unbounded histories", "anchors": ["src/input/ipa_keepalive.c"]}
{"id": "C32", "title": "IPA keep-alive: a silent peer is always detected, a live one never dropped", "statement": "If the response timer expires the user callback is invoked exactly once for that ping and its verdict (or its absence) decides the termination; a PONG received in time always prevents it.", "quantifier": "all event histories", "why_tests_cant": "unbounded histories", "anchors": ["src/input/ipa_keepalive.c"]}
{"id": "C33", "title": "LAPD header encode/parse round trip", "statement": "Every LAPD frame header produced for a valid address/control field is parsed back to the same C/R, SAPI, TEI, control format, N(S), N(R), P/F and payload.", "quantifier": "all field values, all formats", "why_tests_cant": "large field product", "anchors": ["src/input/lapd.c:send_ph_data_req", "src/input/lapd.c:lapd_receive"]}
{"id": "C34", "title": "LAPD receive never reads beyond the message", "statement": "Any octet string handed to the LAPD receiver is either dispatched or rejected with an error, never read outside its length, never crashing.", "quantifier": "all octet strings, all TEI/SAP tables", "why_tests_cant": "adversarial input", "anchors": ["src/input/lapd.c:lapd_receive", "src/input/lapd.c:lapd_tei_receive"]}
{"id": "C35", "title": "LAPD TEI and SAP tables hold unique entries", "statement": "Through any sequence of received frames and sap start/stop calls there is at most one TEI entry per TEI number and one SAP entry per SAPI in a TEI; lookup after start finds it; stop removes exactly it.", "quantifier": "all operation histories", "why_tests_cant": "unbounded histories", "anchors": ["src/input/lapd.c:lapd_sap_start", "src/input/lapd.c:lapd_sap_stop", "src/input/lapd.c:lapd_tei_receive"]}
{"id": "C36", "title": "LAPD TEI management", "statement": "Every TEI identity request is answered by exactly one identity-assigned message carrying the requested TEI, which is assigned afterwards; no link and no other TEI is affected; no other management message is answered or changes anything. (Not so: the reference number is not echoed, a TEI in use is assigned again.)", "quantifier": "all request messages and states", "why_tests_cant": "all inputs", "anchors": ["src/input/lapd.c:lapd_tei_receive"]}
{"id": "C37", "title": "E1 line lifetime follows its use count", "statement": "A line object exists exactly while more references to it were handed out (create, clone, get, link create) than returned (put, link destroy) and is freed by exactly the call returning the last one, for any interleaving by any users; a lookup by number finds the one live line created for that number, numbers are unique; counters shared by a line and its clones live as long as one of them.", "quantifier": "all histories of create/find/get/put", "why_tests_cant": "unbounded histories", "anchors": ["src/e1_input.c:e1inp_line_create", "src/e1_input.c:e1inp_line_find"]}
{"id": "C38", "title": "E1 signalling-link lookup and uniqueness", "statement": "Lookup of (TEI,SAPI) on a timeslot returns the oldest link made with that address and not destroyed; a received message goes to exactly that link or is freed with an error; destroying a link removes it and frees exactly its untransmitted messages; a destroyed link is never found, never receives and never transmits (as long as timeslots are reconfigured only when they have no links).", "quantifier": "all histories of create/destroy/lookup", "why_tests_cant": "unbounded histories", "anchors": ["src/e1_input.c:e1inp_sign_link_create", "src/e1_input.c:e1inp_sign_link_destroy", "src/e1_input.c:e1inp_lookup_sign_link"]}
{"id": "C39", "title": "E1 signalling transmit order", "statement": "Messages sent on one signalling link leave in the order they were sent, none duplicated, none invented, and after the link is destroyed each was transmitted or freed; each transmit opportunity takes the oldest message of the oldest link of the timeslot that has one waiting; raw and HDLC timeslots are FIFO.", "quantifier": "all interleavings of send and transmit", "why_tests_cant": "unbounded schedules", "anchors": ["src/e1_input.c:abis_sendmsg", "src/e1_input.c:e1inp_tx_ts"]}
{"id": "C40", "title": "E1 timeslot reconfiguration", "statement": "A timeslot has the type last requested; configuring the present type changes nothing; another type leaves it empty and frees exactly what a raw/HDLC queue held, without touching any other timeslot. (That a timeslot with active links is refused, and that a former TRAU timeslot works for signalling, are refuted.)", "quantifier": "all timeslot states", "why_tests_cant": "all states", "anchors": ["src/e1_input.c:e1inp_ts_config_trau", "src/e1_input.c:e1inp_ts_config_sign"]}
{"id": "C41", "title": "IPA connection transmit queue: FIFO, no loss", "statement": "On an IPA client or server connection, whatever the socket, the peer and the callbacks do: messages accepted for transmission are taken from the queue in order and each exactly once; as long as the socket takes whole messages the octet stream sent is exactly the concatenation of the messages taken; on an established connection every accepted message is sent once the socket is writable often enough; clearing the queue frees all waiting messages and returns their number. (A message the socket takes only in part or not now must not be lost either: false of the code and refuted, as is transmission of messages accepted while still connecting.)", "quantifier": "all histories of API calls, socket events, timer expiries and callback behaviours, all message contents", "why_tests_cant": "all schedules of short writes, errors and re-entrant calls", "anchors": ["src/input/ipa.c:ipa_client_conn_send", "src/input/ipa.c:ipa_client_write", "src/input/ipa.c:ipa_client_fd_cb", "src/input/ipa.c:ipa_server_conn_send", "src/input/ipa.c:ipa_server_conn_write", "src/input/ipa.c:ipa_client_conn_clear_queue"]}
{"id": "C42", "title": "IPA connection state machine and lifetime", "statement": "Through any history, a client connection goes idle - connecting - connected - idle only: open makes a socket exactly when there is none and is refused with -EINVAL otherwise; up is reported exactly once per established connection, after open and before any message is read or written; every socket opened is closed exactly once, followed by down unless the user closed it. Used as documented (close before destroy, a read callback that closes returns -EBADF, no destroy from the send-failure callback) the library never touches a freed connection and a freed connection gets no event. A server connection reports closed exactly once. Each documented rule is shown necessary; the library's own CCM handler breaks it (refuted).", "quantifier": "all histories of API calls, socket events, timer expiries and callback behaviours", "why_tests_cant": "unbounded histories with re-entrancy", "anchors": ["src/input/ipa.c:ipa_client_conn_open2", "src/input/ipa.c:ipa_client_conn_close", "src/input/ipa.c:ipa_client_conn_destroy", "src/input/ipa.c:ipa_client_fd_cb", "src/input/ipa.c:ipa_connect_timeout_cb", "src/input/ipa.c:ipa_server_conn_destroy", "src/input/ipa.c:ipa_server_conn_cb", "src/input/ipa.c:ipa_server_conn_ccm"]}
{"id": "C43", "title": "ip.access: timeslot/link addressing is a bijection", "statement": "OML goes to timeslot 0 and RSL of TRX n to timeslot n+1 for every n the line can hold; the sign-link type/TRX derived from a timeslot is the inverse; streams for TRX numbers the line cannot hold are refused without memory error.", "quantifier": "all 256 stream identifiers / TRX numbers", "why_tests_cant": "all values", "anchors": ["src/input/ipaccess.c"]}
{"id": "C44", "title": "Ericsson PCU frames are laid out as documented", "statement": "For every PCU-SYNC-IND and PCU-DATA-IND (16k: CS-1, CS-2; 64k: CS-1 to CS-4 and MCS-1 to MCS-9, the scheme of an EGPRS block being read from its header) the encoder returns the length the time adjustment asks for (320/324/316 or 1280/1296/1264), writes only inside the buffer, and produces a frame whose sync cells, frame type, time adjustment, demodulation mode, timing offset, power attenuation, sequence numbers, data bits, CRC and extended-control parity are those of the documented figure; anything it cannot send is refused with -EINVAL. Control bit C8 and its parity at 64k, and the cells shown as 0 at 16k, are where the code departs from the figures.", "quantifier": "all frame structs, all buffer contents", "why_tests_cant": "all field values and all MAC blocks (2^1240)", "anchors": ["src/trau/trau_pcu_ericsson.c:er_gprs_trau_frame_encode_16k", "src/trau/trau_pcu_ericsson.c:er_gprs_trau_frame_encode_64k"]}
{"id": "C45", "title": "Ericsson CCU frames are accepted iff they are as documented, and then reported faithfully", "statement": "Every 320-bit (16k) or 1280-bit (64k) block is reported as CCU-SYNC-IND or CCU-DATA-IND exactly if its sync cells, frame type, parities, coding scheme, access delay code, CRC (CS-1) and access bursts are those of the documented figure, and the reported fields are exactly the ones the frame carries; every other block is -EINVAL with nothing reported, and nothing outside the block is read. The bit error probability of EGPRS blocks and the contents of MCS-9 blocks are where the code departs from that.", "quantifier": "all 320-bit and all 1280-bit inputs", "why_tests_cant": "2^1280 inputs", "anchors": ["src/trau/trau_pcu_ericsson.c:er_gprs_trau_frame_decode_16k", "src/trau/trau_pcu_ericsson.c:er_gprs_trau_frame_decode_64k"]}
{"id": "C46", "title": "IPA proxy forwards each stream to its configured peer stream", "statement": "Through any configuration history, a message whose stream identifier no route of its connection has on the side it comes from is dropped. As long as no two routes of a pair of instances share an identifier, every other message is forwarded to the other side, once; where the routes of the pair are symmetric (in particular where they keep the identifier) it gets the identifier its route gives it. (A route that translates p to q without a route q to p is not honoured by the code: identifier 0 is put in; stated exactly.)", "quantifier": "all route tables, all stream identifiers", "why_tests_cant": "all configurations", "anchors": ["src/ipa_proxy.c:ipa_sock_src_cb", "src/ipa_proxy.c:ipa_sock_dst_cb", "src/ipa_proxy.c:__ipa_route_add"]}
{"id": "C47", "title": "IPA proxy configuration database is consistent", "statement": "Through any sequence of instance/route add/delete commands: a command either has exactly its documented effect on the configuration or none; names of up to 15 octets are unique and address their instance; an instance in use by a route is never deleted and its use count equals the number of routes using it; a port is listened on exactly once per pair of instances; and no freed object is accessed as long as the oldest route of a pair and unknown instances are not deleted and the destination does not send after the source closed (each exception shown to be undefined behaviour).", "quantifier": "all command histories", "why_tests_cant": "unbounded histories", "anchors": ["src/ipa_proxy.c:__ipa_instance_add", "src/ipa_proxy.c:ipa_route_del", "src/ipa_proxy.c:ipa_instance_del"]}
{"id": "C48", "title": "Unix-socket driver: framing, connection handling, no stall", "statement": "Every LAPD message handed to the driver becomes exactly one datagram version 1, type data, message; every received datagram of that form (up to the receive buffer) is passed up unchanged and every other is rejected; the super-channel control message has the documented encoding and is the first thing sent on every new connection; only the current connection's descriptor is written or closed, each failed connection is closed once and exactly one connection exists; while a connection lasts a queued message keeps the driver waiting for writability.", "quantifier": "all datagrams, all histories of API calls, socket events and kernel answers", "why_tests_cant": "adversarial peer and unbounded histories of reconnects", "anchors": ["src/input/unixsocket.c", "include/osmocom/abis/unixsocket_proto.h"]}
{"id": "C49", "title": "PCAP captures are readable files holding exactly the signalling messages", "statement": "After any sequence of capture configuration calls and signalling messages every capture file is a complete PCAP file; each message on a captured timeslot appends exactly one record, of the right length, with the message unchanged and its direction, to the file in force for the line and to no other; a descriptor the library closed is never used again.", "quantifier": "all histories of capture configuration and traffic, all messages", "why_tests_cant": "unbounded histories; every length", "anchors": ["src/input/lapd_pcap.c", "src/e1_input.c:e1_set_pcap_fd2", "src/e1_input.c:e1_set_pcap_fd", "src/e1_input.c:write_pcap_packet"]}
{"id": "C50", "title": "No signalling message is stalled", "statement": "As long as links are destroyed only while no other link of the timeslot has messages waiting and timeslots are not switched from TRAU/I.460, every message accepted for a link is transmitted after finitely many write opportunities and timer expiries: the library never leaves a message queued with neither a write request nor a timer pending.", "quantifier": "all reachable states of the input layer", "why_tests_cant": "liveness over all histories and schedules", "anchors": ["src/e1_input.c:abis_sendmsg", "src/e1_input.c:e1inp_tx_ts", "src/input/dahdi.c:handle_ts1_write", "src/e1_input.c:e1inp_sign_link_destroy"]}
{"id": "C51", "title": "The synchroniser accepts exactly the published patterns and locks onto the encoder's frames", "statement": "For every pattern identifier, a bit sequence is accepted as that pattern exactly if it carries the fixed bits published for it (TS 48.060, 48.061, V.110, the Ericsson CCU frame figures); and after any idle ones, any sequence of frames the library's own encoder produced for types meant for the pattern is delivered frame by frame with no loss report. E-TRAU data frames are not covered by any pattern.", "quantifier": "all bit sequences, all sequences of encoded frames of any contents", "why_tests_cant": "2^320 sequences per pattern, unbounded streams", "anchors": ["src/trau/trau_sync.c:sync_patterns", "src/trau/trau_sync.c:osmo_trau_sync_rx_ubits", "src/trau/trau_frame.c:osmo_trau_frame_encode"]}
{"id": "C52", "title": "Control bits of TRAU frames made from RTP say what the packet says", "statement": "For every accepted packet the frame made by osmo_rtp2trau carries the type code of its codec and direction, BFI, SID class, TAF and DTXd (uplink) or SP (downlink, 0 exactly for a SID) as the packet and libosmocodec say, the intermediate rate for data, all spare bits set as specified, and parity equal to the remainder modulo x^3+x+1. A downlink packet without payload gets the idle code in the struct, but the encoder sends it as speech.", "quantifier": "all packets, directions, frame structs, codec classifiers", "why_tests_cant": "all payloads (2^264)", "anchors": ["src/trau/trau_rtp_conv.c:osmo_rtp2trau", "src/trau/trau_rtp_conv.c:rtp2trau_fr", "src/trau/trau_rtp_conv.c:rtp2trau_efr", "src/trau/trau_rtp_conv.c:rtp2trau_hr16", "src/trau/trau_rtp_conv.c:rtp2trau_hr8", "src/trau/trau_rtp_conv.c:rtp2trau_data_fr"]}
{"id": "C53", "title": "ip.access BSC side: connections, lines and keepalive never dangle and close exactly once", "statement": "Through any history of OML/RSL connections, received messages (with arbitrary answers of the application callbacks, which may themselves configure timeslots, create and destroy links and send), link destruction and keepalive timeouts: no freed line, connection, link or keepalive machine is used; every accepted connection is closed at most once and never used after; the sign-link-down callback runs once per closed connection; a line is freed exactly when its last connection and link are gone. This holds for applications that follow stated rules (do not close the connection being identified, only one connection per TRX, TRX below 31, timeslot configured); each rule is shown necessary.", "quantifier": "all histories of connections, messages and callbacks", "why_tests_cant": "unbounded interleavings of peers and re-entrant callbacks", "anchors": ["src/input/ipaccess.c:ipaccess_close", "src/input/ipaccess.c:ipaccess_bsc_rcvmsg", "src/input/ipaccess.c:ipaccess_bsc_conn_read_cb", "src/input/ipaccess.c:ipaccess_bsc_conn_closed_cb", "src/input/ipaccess.c:ipaccess_bsc_oml_accept_cb", "src/input/ipaccess.c:ipaccess_bsc_rsl_accept_cb"]}
{"id": "C54", "title": "ip.access BSC side: messages reach their link and their connection, in order", "statement": "A message sent on a link is framed with its length and the link's TEI and goes at once to the connection of the link's timeslot, after everything sent before; without a connection it waits in the link's queue and is sent, in order, when an RSL connection is attached to the timeslot; it is dropped only with its link. A message received goes unchanged to the oldest link of the connection's timeslot whose TEI is the stream identifier (SAPI 0); if none, the connection is closed.", "quantifier": "all histories, links and messages", "why_tests_cant": "unbounded histories of connects and sends", "anchors": ["src/input/ipaccess.c:ts_want_write", "src/input/ipaccess.c:ipaccess_bsc_write_cb", "src/input/ipaccess.c:ipaccess_bsc_conn_read_cb", "src/e1_input.c:abis_sendmsg", "src/e1_input.c:e1inp_lookup_sign_link"]}
{"id": "C55", "title": "ip.access BTS side: streams, keepalive and callbacks never dangle", "statement": "Through any history of line updates, RSL connects and closes, stream events (connected, lost, message or end of file), keepalive timeouts and application callbacks that may themselves use the API, no freed stream or keepalive machine and no link list of an unconfigured timeslot is used; each stream is opened once, used only while it exists, closed at most once and freed at most once after that; a lost stream is closed, its supervision ends and sign-link-down runs. If the application opens no streams inside sign-link-down, a timeslot has at most one stream, reconnecting replaces it, and for TRX numbers in range and CCM messages with a type the only possible abort is the use of a link on a timeslot without stream. Each condition is shown necessary.", "quantifier": "all histories of API calls, stream events and re-entrant callbacks", "why_tests_cant": "unbounded interleavings of peer, timers and re-entrant callbacks", "anchors": ["src/input/ipaccess.c:ipaccess_bts_connect_cb", "src/input/ipaccess.c:ipaccess_bts_disconnect_cb", "src/input/ipaccess.c:ipaccess_bts_read_cb", "src/input/ipaccess.c:e1inp_ipa_bts_rsl_connect_n", "src/input/ipaccess.c:e1inp_ipa_bts_rsl_close_n", "src/input/ipaccess.c:ipaccess_line_update", "src/input/ipaccess.c:ipaccess_close"]}
{"id": "C56", "title": "ip.access BTS side: messages reach their link and their stream", "statement": "A message sent on an OML, RSL or OSMO link goes at once, framed with its 16-bit length and the link's TEI, to the stream of the link's timeslot (links of other types drop it); nothing ever waits in a link's queue between calls. A message received with a stream identifier other than CCM goes unchanged to the oldest link of the stream's timeslot with that TEI and SAPI 0; if there is none the stream is closed.", "quantifier": "all reachable states, links and messages", "why_tests_cant": "unbounded histories", "anchors": ["src/input/ipaccess.c:ts_want_write", "src/input/ipaccess.c:ipaccess_bts_write_cb", "src/input/ipaccess.c:ipaccess_bts_read_cb", "src/e1_input.c:e1inp_lookup_sign_link"]}
{"id": "C57", "title": "osmo-e1d driver: descriptors and connection", "statement": "Through any history of timeslot configuration, line updates, traffic, daemon answers and reconnects: every descriptor obtained from the daemon is opened, put in the select loop, used, taken out and closed in that order, closed once and never used after; none is lost: an open one belongs to a timeslot of an updated line, one per timeslot, while connected; without a connection nothing is open and another attempt is scheduled; a successful update leaves every timeslot the daemon has with a descriptor in the mode its type needs and LAPD exactly for signalling; a daemon that is back brings all updated lines back. With a daemon that reports all timeslots and an application that updates after configuring and leaves the timeslot alone whose data it is being given, nothing null is used, except that setting Sa bits without a connection crashes. Each condition is shown necessary.", "quantifier": "all histories of API calls, socket events, timers and daemon/kernel answers", "why_tests_cant": "unbounded histories with failures at every point", "anchors": ["src/input/e1d.c:e1d_line_update", "src/input/e1d.c:e1d_fsm", "src/input/e1d.c:e1d_fd_cb", "src/input/e1d.c:terminate_line", "src/input/e1d.c:e1d_conn_lost", "src/input/e1d.c:e1d_write_msg"]}
{"id": "C58", "title": "osmo-e1d driver: data path", "statement": "Per timeslot messages are handed on (to LAPD, or to the daemon) in the order they were accepted, none twice, none lost unless the timeslot is reconfigured or the write fails; only to a descriptor opened for that timeslot. Octets read go up unchanged (TRAU: every octet bit-reversed; raw and TRAU only as full 160-octet reads), for that timeslot, once, and nothing else is ever reported as received. A waiting message keeps being asked for as long as no line is updated and no connection made (a line update or sending while disconnected stalls it: refuted).", "quantifier": "all reachable states, all messages and reads", "why_tests_cant": "unbounded histories; all octet strings", "anchors": ["src/input/e1d.c:handle_ts_sign_read", "src/input/e1d.c:handle_ts_sign_write", "src/input/e1d.c:handle_ts_trau_read", "src/input/e1d.c:handle_ts_raw_read", "src/input/e1d.c:handle_ts_raw_write", "src/input/e1d.c:handle_ts_hdlc_read", "src/input/e1d.c:handle_ts_hdlc_write", "src/input/e1d.c:e1d_want_write"]}
{"id": "C59", "title": "TRAU frames have the published layout, bit by bit", "statement": "For every frame struct and every previous content of the output buffer, each bit of a frame osmo_trau_frame_encode produced is the constant or numbered bit that the figure of TS 48.060 / 48.061 for its type and direction shows in that place (type codes and the odd parity of 8k downlink speech included); each field of a struct osmo_trau_frame_decode_16k / _8k produced is the bit on the line in its place of the figure of the decoded type. 16k O&M, 8k AMR 6.7 and the last bit of 8k O&M frames do not follow the figures.", "quantifier": "all frame structs, buffers, bit strings, states of the idle generator", "why_tests_cant": "2^320 bit strings, all field values", "anchors": ["src/trau/trau_frame.c:osmo_trau_frame_encode", "src/trau/trau_frame.c:osmo_trau_frame_decode_16k", "src/trau/trau_frame.c:osmo_trau_frame_decode_8k"]}
{"id": "C60", "title": "DAHDI driver: descriptors and channels", "statement": "Through any history of timeslot configuration, port changes, line updates, traffic and kernel answers: the descriptor of a timeslot is opened, set up, put in the select loop, used, taken out and closed in that order, one at a time, none lost and none shared between timeslots. Each is opened for the channel that the kernel's report of spans gives the timeslot: spans number their channels one after the other from 1, so different timeslots of different ports never get the same channel while report and ports stay the same. A successful update leaves each timeslot of the span with a descriptor in the mode its type needs, in the select loop, with LAPD exactly as its type needs (HDLC keeps what was there), or closed when unused; a failed one says so. With a kernel that serves and an application that updates after configuring, every update succeeds and nothing breaks but reconfiguring a signalling timeslot that still has links. A failed open is never tried again; port out of table, wide spans, descriptor number 0, configuring inside the timeslot's own callback break it (refuted).", "quantifier": "all histories of API calls, select loop events, timers and kernel answers", "why_tests_cant": "unbounded histories with failures at every point, any number of lines and spans", "anchors": ["src/input/dahdi.c:dahdi_e1_setup", "src/input/dahdi.c:dahdi_e1_line_update", "src/input/dahdi.c:reread_span_cfgs", "src/input/dahdi.c:dahdi_open_slot", "src/input/dahdi.c:dahdi_set_bufinfo", "src/input/dahdi.c:dahdi_fd_cb"]}
{"id": "C61", "title": "DAHDI driver: data path and alarms", "statement": "Messages of a link or raw/HDLC queue are handed on in the order accepted, each once, none lost while link and timeslot type stay. A frame read from a signalling or HDLC timeslot goes up without its two check sum octets (shorter than four: dropped), to LAPD or the receiver; a raw or TRAU read goes up only if it has 160 octets, TRAU octets bit-reversed; each read is delivered once to its own timeslot and nothing else is reported as received. HDLC and LAPD frames are written with room for the check sum, raw ones as they are, and each TRAU block received is answered with one block from the multiplexer, bit-reversed. Events of the card are counted and raise or clear the alarm exactly as reported. Waiting messages keep being asked for as long as no line is updated and no link destroyed; each of those stalls (refuted), a busy link starves later ones (refuted) and a failed write loses its message.", "quantifier": "all reachable states, all messages and reads", "why_tests_cant": "unbounded histories; all octet strings", "anchors": ["src/input/dahdi.c:handle_ts1_read", "src/input/dahdi.c:handle_ts1_write", "src/input/dahdi.c:handle_hdlc_read", "src/input/dahdi.c:handle_hdlc_write", "src/input/dahdi.c:handle_tsX_read", "src/input/dahdi.c:handle_tsX_write", "src/input/dahdi.c:handle_ts_raw_read", "src/input/dahdi.c:handle_ts_raw_write", "src/input/dahdi.c:handle_dahdi_exception", "src/input/dahdi.c:dahdi_write_msg"]}
{"id": "C62", "title": "mISDN driver: sockets of the timeslots", "statement": "Through any history of timeslot configuration, line updates, traffic and kernel answers, with LAPD in the kernel or in this library: the socket of a timeslot is opened, bound, activated (or its kernel LAPD cleared), put in the select loop, taken out and closed in that order, written to only while open, one per timeslot, none lost and none shared. Its protocol and channel are those its type needs. An update that returns 0 does nothing to timeslots whose configuration did not change, closes and reopens the others, and holds the D-channel open just while signalling uses this library's LAPD; one that fails returns a negative number, and only if the kernel refused something. With a kernel that refuses nothing and an application that updates after configuring, every timeslot in use is in the select loop as configured and the only crash is reconfiguring a signalling timeslot with links. Not kept (refuted): a failed setup is not tried again and the next update returns 0, moving the line to another port, I.460, Sa bits without timeslot 16, configuring without updating or in the timeslot's own callback.", "quantifier": "all histories of API calls, select loop events, timers and kernel answers", "why_tests_cant": "unbounded histories with failures at every point", "anchors": ["src/input/misdn.c:mi_e1_setup", "src/input/misdn.c:_mi_e1_line_update", "src/input/misdn.c:activate_bchan", "src/input/misdn.c:misdn_fd_cb", "src/input/misdn.c:set_sa_bits"]}
{"id": "C63", "title": "mISDN driver: data path", "statement": "Messages of a link or raw/HDLC queue leave in the order accepted, each once; at most one raw or HDLC frame of a timeslot is unconfirmed; kernel signalling carries TEI and SAPI of its link and the channel last told for it. Raw octets are bit-reversed both ways, HDLC frames unchanged, every TRAU block is answered with as many octets of the multiplexer. A datagram gives the layers above exactly what it says, and receptions come from datagrams only. Waiting messages are asked for, sent when there is room, and a confirmation or the delay timer lets the next out. Not kept (refuted): after a short write, or when a message was sent before the first update, or a link was taken down, the queue waits; a confirmation that never comes blocks the timeslot for ever; two receive paths leak the buffer.", "quantifier": "all reachable states, all messages and datagrams", "why_tests_cant": "unbounded histories; all octet strings", "anchors": ["src/input/misdn.c:handle_ts1_read", "src/input/misdn.c:handle_ts1_write", "src/input/misdn.c:handle_tsX_read", "src/input/misdn.c:handle_tsX_write", "src/input/misdn.c:handle_ts_raw_read", "src/input/misdn.c:handle_ts_raw_write", "src/input/misdn.c:handle_ts_hdlc_read", "src/input/misdn.c:handle_ts_hdlc_write", "src/input/misdn.c:ts_want_write", "src/input/misdn.c:timeout_ts1_write"]}
{"id": "C64", "title": "mISDN driver: alarms of the line", "statement": "Each indication of the card (loss of signal, alarm indication, remote alarm, coming and going, Sa bits) on a signalling or HDLC timeslot is signalled as it says and nothing else is; the line's alarm is raised when the first of the three defects appears and cleared when the last is gone, never twice. Raw and TRAU timeslots do not pass indications on (refuted).", "quantifier": "all histories, all indication values", "why_tests_cant": "unbounded histories of indications over all timeslots", "anchors": ["src/input/misdn.c:mph_information_ind"]}
{"id": "C65", "title": "Serial port: framing", "statement": "The messages delivered from the serial port are exactly those the framed octet stream contains, each once and in order, however the stream is cut into reads, with the payload after the ten-octet header; what is sent is written in frames that the other end splits into the same messages. Storage for a frame is overrun exactly by announced lengths above 298 (refuted as memory safety), an object is used after it was freed when a read fails (refuted), and a short write loses synchronisation (refuted).", "quantifier": "all octet streams, all ways of cutting them into reads, all messages", "why_tests_cant": "unbounded streams and all chunkings", "anchors": ["src/input/rs232.c:handle_ser_read", "src/input/rs232.c:handle_ser_write", "src/input/rs232.c:serial_fd_cb", "src/input/rs232.c:rs232_setup"]}
{"id": "C66", "title": "Serial port: queue and setup", "statement": "Messages of a link on a serial port leave in the order given; one leaves per request to send, promptly when the port is writable and the queue was empty. A setup that succeeds leaves the port in the select loop one that fails returns a negative number. Not kept (refuted): a burst of messages stalls until the next request, a failed setup leaks the descriptor, setting up twice registers the descriptor twice, a failed second setup leaves the old registration reading the new descriptor, a message that comes while no callback is set leaks.", "quantifier": "all histories of requests, select loop events and kernel answers", "why_tests_cant": "unbounded histories with failures at every point", "anchors": ["src/input/rs232.c:rs232_want_write", "src/input/rs232.c:handle_ser_write", "src/input/rs232.c:rs232_setup", "src/input/rs232.c:rs232_line_update"]}
{"id": "C67", "title": "RTP socket", "statement": "Every packet sent bears the socket's first timestamp plus the durations of all packets sent and frames skipped before it (mod 2^32); nothing goes in or out before the socket is connected nor after it is freed; packets given to the application are those libortp had, not empty, each once; polling reports whether there was one; in select mode libortp is asked with a clock that gains 160 ticks per call. RTP and RTCP descriptors are in the select loop both or neither, never in polling mode, never after freeing; connecting tells success by its return value. A socket is put in the select loop twice only if connected twice, and used after it was freed only if the application goes on using it or frees it in its receive callback in select mode. Not kept (refuted): connecting a second time, freeing in the callback in select mode, port 0 returns success, after a failed registration the socket sends, a packet without callback is lost.", "quantifier": "all histories of API calls, callbacks, select loop events and answers of libortp", "why_tests_cant": "unbounded histories, re-entrant calls from callbacks, wrap-around of timestamps", "anchors": ["src/trau/osmo_ortp.c:osmo_rtp_socket_create", "src/trau/osmo_ortp.c:osmo_rtp_socket_connect", "src/trau/osmo_ortp.c:osmo_rtp_socket_autoconnect", "src/trau/osmo_ortp.c:osmo_rtp_send_frame_ext", "src/trau/osmo_ortp.c:osmo_rtp_skipped_frame", "src/trau/osmo_ortp.c:osmo_rtp_socket_poll", "src/trau/osmo_ortp.c:osmo_rtp_fd_cb", "src/trau/osmo_ortp.c:osmo_rtp_socket_free"]}
{"id": "C68", "title": "Configuration by VTY", "statement": "What the configuration writer prints is read back at the next start: every printed line is accepted, the lines come back in the same order with the same number, driver, port, name, connect timeout, keepalive parameters and capture file, the global IPA settings come back too (if there is a line), and writing again prints the same text. A refused command changes nothing; a command for one line leaves all others alone; an accepted command sets exactly the field it names; line numbers are unique. Capture files: each descriptor is opened and closed once, open ones are exactly those of lines with a capture file, no two lines share one. Shown timeslots are exactly the used ones. The program crashes exactly on 'no e1_line N pcap' for an unknown line. Not kept (refuted): the socket path is not written, global settings are lost when there is no line, a name of two words is cut, a line of the rs232 driver is written but cannot be read, the sockets get the DSCP as priority and the priority as DSCP.", "quantifier": "all histories of VTY commands (any text) and of lines created by the application, all outcomes of opening and writing capture files", "why_tests_cant": "unbounded histories of arbitrary command texts, all printed configurations", "anchors": ["src/e1_input_vty.c:e1inp_config_write", "src/e1_input_vty.c:set_keepalive_params", "src/e1_input_vty.c:cfg_e1line_driver", "src/e1_input_vty.c:cfg_e1line_pcap", "src/e1_input_vty.c:cfg_e1line_no_pcap", "src/e1_input_vty.c:show_e1ts", "src/e1_input.c:e1_set_pcap_fd2", "src/input/ipaccess.c:e1inp_ipa_set_bind_addr"]}
{"id": "C69", "title": "A call end to end", "statement": "For every sequence of RTP payloads of one call (full rate and enhanced full rate speech uplink, with or without the TW-TS-001 header, lost packets, half rate on 16k uplink and on 8k downlink, V.110 data in both directions): each payload is accepted and becomes one frame of bits; the line may idle before, and the bits may reach the receiver cut in any pieces; the synchroniser allocated with the pattern of that kind of call delivers exactly those frames, once, in order, and reports no loss; and each delivered frame, decoded into any frame struct and any buffer of 160 octets, gives back the payload it was made of (for half rate after a table-of-contents octet saying SID or speech). Not so in the downlink for full rate and enhanced full rate without TW-TS-001 (refuted): every packet arrives as an empty one.", "quantifier": "all kinds of calls, all payload sequences, all struct and buffer contents, all cuts of the bit stream, all libosmocodec SID functions obeying the stated laws", "why_tests_cant": "composition of five API functions over unbounded sequences and all cuts", "anchors": ["src/trau/trau_rtp_conv.c:osmo_rtp2trau", "src/trau/trau_frame.c:osmo_trau_frame_encode", "src/trau/trau_sync.c:osmo_trau_sync_rx_ubits", "src/trau/trau_frame.c:osmo_trau_frame_decode_16k", "src/trau/trau_frame.c:osmo_trau_frame_decode_8k", "src/trau/trau_rtp_conv.c:osmo_trau2rtp"]}
{"id": "C70", "title": "A call through a sub-channel of a timeslot", "statement": "For every sequence of RTP payloads of a call that uses 16k frames, and every history of the sub-channel multiplexer (all four sub-channels in use, output requested in any amounts) in which exactly the frames of this call are queued on one sub-channel and never more than three are waiting: the multiplexer's output, handed in any pieces to a demultiplexer that has that sub-channel active, yields one frame per 160 octets; in those frames the packets arrive in order, each once and with the payload that was sent, and every other frame is one the conversion gives no payload for; the packets that have not arrived are at most as many as there are entries still queued.", "quantifier": "all payload sequences, all interleavings of enqueueing and output on all sub-channels, all cuts of the octet stream", "why_tests_cant": "composition of six API functions over unbounded histories", "anchors": ["src/trau/trau_rtp_conv.c:osmo_rtp2trau", "src/trau/trau_frame.c:osmo_trau_frame_encode", "src/subchan_demux.c:subchan_mux_enqueue", "src/subchan_demux.c:subchan_mux_out", "src/subchan_demux.c:subch_demux_in", "src/trau/trau_frame.c:osmo_trau_frame_decode_16k", "src/trau/trau_rtp_conv.c:osmo_trau2rtp"]}
{"id": "C71", "title": "Which transmission errors the CRCs let through", "statement": "For every frame the receiver takes and every error pattern in its CRC-protected bits and check bits: the frame with those errors is still taken exactly if the pattern is a multiple of the code's polynomial (half rate on 16k and 8k: D1-D44 and 3 check bits; enhanced full rate: each of the five groups; Ericsson CS-1 blocks on 16k and 64k: 184 bits and 16 check bits); otherwise it is reported bad / refused. Hence bursts up to 3 (16) bits are always noticed, CS-1 blocks with one, two or an odd number of wrong bits are always refused. Refuted: that two errors in a half rate frame are always noticed (never noticed when their distance is a multiple of 7), and that CS-2 blocks are protected at all.", "quantifier": "all frames, all error patterns", "why_tests_cant": "2^200 error patterns for each of 2^184 blocks", "anchors": ["src/trau/trau_rtp_conv.c:osmo_trau2rtp", "src/trau/trau_rtp_conv.c:gsm0860_efr_crc3", "src/trau/trau_pcu_ericsson.c:er_gprs_trau_frame_decode_16k", "src/trau/trau_pcu_ericsson.c:er_gprs_trau_frame_decode_64k", "src/trau/trau_pcu_ericsson.c:cs1_crc16"]}
{"id": "C72", "title": "Listening IPA link", "statement": "For every history of a listening link (open, close, destroy, connections, an accept callback that keeps, closes or refuses the descriptor and may itself close and destroy the link, other descriptors opened and closed by the program, every answer of the kernel, descriptor numbers reused): the library is never the first to break a rule - it listens with at most one socket, watched exactly while it is open, closes only that socket and descriptors its callback refused, and at the end of every event each accepted descriptor has exactly one owner or was closed once; as long as the application keeps its side no freed memory is touched; each connection is offered once, in order; the socket is bound to the configured address; opening may fail and be tried again. Refuted: opening twice is not refused and loses the first socket; a link for any address serves only one address once it is reopened after a connection; the IPA proxy's accept callback breaks the rules exactly when memory or the connection to the destination fails, and then a dead connection watches the descriptor number of the next one.", "quantifier": "all histories of calls, events, callback behaviours and kernel answers", "why_tests_cant": "unbounded histories and reuse of descriptor numbers", "anchors": ["src/input/ipa.c:ipa_server_fd_cb", "src/input/ipa.c:ipa_server_link_create", "src/input/ipa.c:ipa_server_link_open", "src/input/ipa.c:ipa_server_link_close", "src/input/ipa.c:ipa_server_link_destroy", "src/ipa_proxy.c:ipa_sock_src_accept_cb"]}
{"id": "C73", "title": "Putting ip.access lines into service at the BSC", "statement": "For every history of configuration commands, line updates, freed lines and connections: the TCP options an accepted OML or RSL connection gets are exactly those configured for its line (nothing but no-delay when keepalive is off; the defaults 30 s, 3 s, 10 probes), and the user timeout fits an int and is never shorter than the whole probing; a line update opens the OML and RSL listeners at the configured address on ports 3002 and 3003, a further update of a line in service changes nothing, a line is in service exactly when both listeners exist, and no freed memory is touched unless a line is freed. Refuted: when only the RSL listener cannot be opened the OML listener stays and every later update fails; a second line at the same address can never be put into service; a changed bind address has no effect once in service; an update under another role marks the line as in service for good; listeners outlive a freed line; the configured DSCP and socket priority reach the listening sockets exchanged.", "quantifier": "all histories of configuration, updates, kernel answers and connections", "why_tests_cant": "unbounded histories of commands and updates", "anchors": ["src/input/ipaccess.c:ipaccess_line_update", "src/input/ipaccess.c:update_fd_settings", "src/input/ipaccess.c:ipaccess_bsc_oml_accept_cb", "src/input/ipaccess.c:ipaccess_bsc_rsl_accept_cb", "src/e1_input.c:e1inp_line_update"]}
{"id": "C74", "title": "Configuration of the IPA proxy as text", "statement": "For every history of typed commands, connections and closures: an instance or route typed is configured as typed (a stream identifier is understood as it is shown, with or without 0x), a deleted route is taken from the list and nothing else; writing the configuration never touches freed memory and puts everything below the heading ipa; when no route was deleted (or no stream identifier is used by two routes of a pair), stored names are distinct (at most 15 octets guarantee that) and the kernel refuses only ports in use, reading the written text at the next start refuses no line and gives the same instances, routes, listening ports, the same text again and the same forwarding of every message. Refuted: what the instance show command prints is no command (address and type exchanged); a port beyond 65535 is silently another one, a word that is no number is port or stream 0; two names of 16 octets beginning alike are stored alike and the second is refused at the next start; a route typed twice is refused at the next start once the routes before it were deleted; a route shown and written may be without effect until the next start.", "quantifier": "all histories of commands, connections and closures", "why_tests_cant": "unbounded histories and all command texts", "anchors": ["src/ipa_proxy.c:ipa_cfg_write", "src/ipa_proxy.c:__ipa_instance_add", "src/ipa_proxy.c:__ipa_route_add", "src/ipa_proxy.c:ipa_route_del", "src/ipa_proxy.c:ipa_instance_show", "src/ipa_proxy.c:ipa_route_show"]}
{"id": "C75", "title": "Signalling links end to end over LAPD", "statement": "Two signalling timeslots joined by an E1 line that may lose, repeat and reorder frames: for every history of links created, destroyed and used, data links started, stopped, established and released, frames and timers at both ends, every message an application gets on a link was sent by the other application on a link with the same TEI and SAPI, octet for octet; no such history reaches undefined behaviour; establishment, release and data indicated by the data link core are told exactly once, to the first existing link with that address (a second link with the same address gets nothing); a frame of an unknown TEI makes one signal about that link and -EIO and changes no data link; a message waiting goes to the data link of its link's address; and a message for which both ends have a data link arrives at the link of the same address. Refuted: with TEIs above 127 messages of TEI 130 arrive at TEI 2; a message sent after the release of its data link is freed without a word; a timeslot given another type keeps its LAPD instance, and the release of a data link then reads another union member as the list of links.", "quantifier": "all histories of two timeslots and the line between them; all frames", "why_tests_cant": "unbounded histories and interleavings of two ends; all octet strings", "anchors": ["src/e1_input.c:e1inp_rx_ts_lapd", "src/e1_input.c:e1inp_dlsap_up", "src/e1_input.c:e1inp_event", "src/e1_input.c:e1inp_int_snd_event", "src/e1_input.c:e1inp_rx_ts", "src/e1_input.c:abis_sendmsg", "src/input/lapd.c:lapd_receive", "src/input/lapd.c:lapd_transmit", "src/input/lapd.c:send_ph_data_req", "src/input/lapd.c:send_dlsap"]}
{"id": "C76", "title": "Line events of osmo-e1d reach the line", "statement": "For lines with distinct ports 0..255 and events of interfaces and lines 0..15: every loss/recovery of signal or frame, AIS, RAI and Sa-bit event of the daemon is told at most once, to the line the driver opened at that interface and line number and to nobody else, with the signal of that event; empty Sa-bit events read nothing and tell nothing; over every history an application that follows the signals of a line knows exactly the alarms and Sa bits the daemon reported for it. Refuted: a line of another driver with the same port (0 unless configured) created earlier is told instead; events of interfaces or lines beyond 15 are told to another line; a line whose port is beyond 255 is opened and never told of an event.", "quantifier": "all line tables and histories of events", "why_tests_cant": "unbounded histories, all configurations", "anchors": ["src/input/e1d.c:e1inp_port_find", "src/input/e1d.c:e1d_client_event_cb", "src/input/e1d.c:e1d_line_update"]}
{"id": "C77", "title": "Keep-alive between two peers in time", "statement": "Two ends of an IPA connection, each with a keep-alive that may be started and stopped at any time, sending any other messages: if everything on its way arrives within D (in any order) and both ends wait for a PONG longer than 2D, neither end ever gives the other up, over every execution; a running keep-alive then has sent a PING within the last interval + 2D + lateness of timers at every moment; and if from some moment no PONG reaches a running end, whatever else arrives, it gives its peer up within interval + waiting time + twice the lateness of timers. The bound 2D < waiting time is sharp.", "quantifier": "all timed executions of both ends and the connection", "why_tests_cant": "unbounded executions, all delays, orders of delivery and timer lateness", "anchors": ["src/input/ipa_keepalive.c:ipa_ka_wait_resp", "src/input/ipa_keepalive.c:ipa_ka_fsm_timer_cb", "src/input/ipaccess.c:ipaccess_bsc_rcvmsg", "src/input/ipaccess.c:ipaccess_bts_handle_ccm", "src/input/ipaccess.c:ipa_bsc_keepalive_timeout_cb"]}
{"id": "C78", "title": "The registry of E1 drivers and lines created by driver name", "statement": "A driver is looked up by its name in any case; among different drivers registered one after the other, however many, the first one registered under the name is found, and unknown names are refused. A line is created exactly if its number is free, a driver of that name is registered and does not refuse it; it then has that driver and is found by its number until it is freed; numbers are unique. Registering a driver object again is not harmless: the drivers registered after it can no longer be found, and if it was the last, looking up an unknown name never returns; initialising the library again keeps its own drivers and loses the application's.", "quantifier": "all histories of registrations, initialisations, lookups, creation and freeing of lines", "why_tests_cant": "unbounded histories over an intrusive list, including non-termination", "anchors": ["src/e1_input.c:e1inp_driver_register", "src/e1_input.c:e1inp_driver_find", "src/e1_input.c:e1inp_line_create", "src/e1_input.c:e1inp_init"]}
{"id": "C79", "title": "The GPRS uplink of an Ericsson Abis end to end", "statement": "Frames of the CCU (synchronisation and data indications, 16 or 64 kbit/s) sent back to back after any idle time, handed to the synchroniser in any pieces, all come out, once and in order, and the decoder makes of each exactly the indication it carries; a frame damaged on the way gives an error and harms no other, as long as there are never three of these in a row. Not true: MCS9 frames alone are found (their pattern only keeps the alignment: from a stream without 64 zeros in a row nothing ever comes out), or a receiver that starts in the middle of the stream finds the frames (user data that contains the 17 bits of the pattern in every frame is taken for the start of the frame for ever, and every frame is refused).", "quantifier": "all sequences of frames of any contents, all damage, all chunkings, all idle times; unbounded streams", "why_tests_cant": "unbounded streams and all frame contents", "anchors": ["src/trau/trau_sync.c:osmo_trau_sync_rx_ubits", "src/trau/trau_sync.c:osmo_trau_sync_set_secondary_pat", "src/trau/trau_pcu_ericsson.c:er_gprs_trau_frame_decode_16k", "src/trau/trau_pcu_ericsson.c:er_gprs_trau_frame_decode_64k"]}
{"id": "C80", "title": "The end of a LAPD instance", "statement": "Whatever was done with a LAPD instance, by the application, the peer and the data link core, the data links it ever made are each ended exactly once: by the release of the link, or by lapd_instance_free, which ends (timers and queues) and frees every one that is left, then its TEI, then the instance, without sending or indicating anything. After a link was released the instance never gives it a frame or a request again.", "quantifier": "all histories of API calls, received frames and core callbacks, also those that assign a TEI twice by hand", "why_tests_cant": "all histories and all points at which the instance is freed", "anchors": ["src/input/lapd.c:lapd_instance_free", "src/input/lapd.c:lapd_tei_free", "src/input/lapd.c:lapd_sap_free", "src/input/lapd.c:send_dlsap"]}
{"id": "C81", "title": "Taking a line out of service", "statement": "When all timeslots of a line have been configured as unused and an update of the line has succeeded, the line has no open descriptor, also not for the D-channel, none of its timeslots is polled, has a LAPD instance or a running delay timer, nothing of the line happens any more by itself, and dropping the last reference to it leaves nothing behind that would use its memory. A line that is merely released is not safe, nor one whose last update failed, was made while osmo-e1d was not connected or after a move to a DAHDI span of fewer channels.", "quantifier": "all histories of configuration, data, updates and failures of the kernel or the daemon before; all events after", "why_tests_cant": "all histories and all later events", "anchors": ["src/e1_input.c:e1inp_line_use_cb", "src/e1_input.c:e1inp_line_update", "src/input/misdn.c:mi_e1_line_update", "src/input/dahdi.c:dahdi_e1_setup", "src/input/e1d.c:e1d_line_update"]}
{"id": "C82", "title": "Abis over IP end to end", "statement": "What a BTS writes on its connection to the BSC is whole messages; the signalling link the BSC has for a TEI on this connection is given the payloads of those with this TEI, each once, in the order written, and none that was not written, up to those still on their way: none are once the network has delivered every octet and no complete message is unread. The same holds from the BSC to the BTS. It holds whatever TCP does to the boundaries between messages, and whatever else happens on both sides at the same time, keepalive and identification included, as long as both sides keep the connection and the link.", "quantifier": "all histories of both sides before, all events of both sides and of the network meanwhile, all messages up to 65535 octets", "why_tests_cant": "all interleavings of both sides, all segmentations of the streams", "anchors": ["src/input/ipaccess.c:ipaccess_bsc_conn_read_cb", "src/input/ipaccess.c:ipaccess_bts_read_cb", "src/input/ipaccess.c:ipaccess_bsc_write_cb", "src/input/ipaccess.c:ipaccess_bts_write_cb", "src/e1_input.c:e1inp_lookup_sign_link"]}
{"id": "C83", "title": "Signalling link lists as memory", "statement": "As long as no line with a signalling timeslot is copied and no timeslot that has links gets another type: whatever lines are created, copied and freed, timeslots configured, links created and destroyed (also from inside the driver's close callback, another link or the same one again), the linked lists of links in memory are intact: no freed or uninitialised list cell is read or written, no loop over a list is endless, e1inp_lookup_sign_link finds the first link with this TEI and SAPI that was created on this timeslot and is not destroyed, a second e1inp_sign_link_destroy of a link while it is being destroyed does nothing, each link is freed once, and its line is not freed before it. Both conditions are needed: e1inp_line_clone copies the list head, so a link created on the copy ends up in the list of the original and a lookup on the copy runs into the original's list head; and e1inp_ts_config_* does not heed cleanup_e1inp_ts's refusal.", "quantifier": "all histories of creating, cloning and freeing lines, configuring timeslots, creating, looking up and destroying links, with destruction nested to any depth", "why_tests_cant": "memory safety over all histories; tests use a few links", "anchors": ["src/e1_input.c:e1inp_sign_link_create", "src/e1_input.c:e1inp_sign_link_destroy", "src/e1_input.c:e1inp_lookup_sign_link", "src/e1_input.c:e1inp_line_clone", "src/e1_input.c:e1inp_ts_config_sign", "src/e1_input.c:cleanup_e1inp_ts"]}
{"id": "C84", "title": "The transmit delay of signalling timeslots in time", "statement": "Between two transmissions on a signalling timeslot during which no link of it is destroyed there is at least the transmit delay (50 ms with DAHDI, mISDN and osmo-e1d), whatever is sent and however often the descriptor is writable, so in any time T there are at most T / delay + 1. If the host serves the descriptor and the timer within a time e, the timeslot works off a message at least every delay + 2e while any waits, and a waiting message goes out within (delay + 2e) times one plus the number of messages ahead of it (on its link, or on links created earlier), provided none is sent on earlier links meanwhile. Destroying a link breaks the first (it deletes the timer of the timeslot), and a busy earlier link can starve a later one for ever.", "quantifier": "all histories in time of sending, creating and destroying links, writability and timer expiry, all delays and latencies", "why_tests_cant": "real-time bounds over all schedules", "anchors": ["src/e1_input.c:abis_sendmsg", "src/e1_input.c:e1inp_tx_ts", "src/e1_input.c:e1inp_sign_link_destroy", "src/input/dahdi.c:handle_ts1_write", "src/input/misdn.c:handle_ts1_write", "src/input/e1d.c:handle_ts_sign_write"]}
{"id": "C85", "title": "The TRAU synchroniser recovers from any past", "statement": "Whatever bits, pattern changes and timer expiries a frame synchroniser has been through, and whatever its error count, once a clean run of frames begins (the pattern at every frame boundary, no configured pattern at any other position inside the run) every frame from the sixth on at the latest is delivered, once, in order and intact, and after seven frames the past is forgotten: further frames are delivered, matching or not, as long as no three in a row match no pattern. This holds for patterns of at most 640 bits if the memory the library never initialised does not imitate the pattern (ones never do). With an unlucky content of that memory it is false: one disturbance can keep the synchroniser out of step with a perfectly clean stream for ever.", "quantifier": "all histories of deliveries, pattern changes and timeouts, all lengths of clean runs, all error counts", "why_tests_cant": "recovery from every reachable state; no bound on the history or the run", "anchors": ["src/trau/trau_sync.c:trau_sync_wait_align", "src/trau/trau_sync.c:trau_sync_aligned", "src/trau/trau_sync.c:rx_history_align", "src/trau/trau_sync.c:osmo_trau_sync_rx_ubits"]}
{"id": "C86", "title": "The sub-channel demultiplexer recovers from any past", "statement": "Whatever was received on a sub-channel and however often it was switched off and on before, once a run of clean frames begins (320 bits, the header at the start and nowhere else) every frame of the run is delivered, in order and once, from the very first one on; compared with what had been delivered before the run, at most one further frame precedes them (an earlier frame completed by the first 16 bits of the run). The multiplexer's output is such a run: a receiver with any past delivers every frame of it, queued or idle. (As long as no run of 2^32 zeros occurs: with one the first frame is missed, see C06.)", "quantifier": "all past histories of input, activation and deactivation, all clean runs, all splittings of the input, all multiplexer histories", "why_tests_cant": "recovery from every reachable state", "anchors": ["src/subchan_demux.c:append_bit_resync_out", "src/subchan_demux.c:resync_to_here", "src/subchan_demux.c:sync_hdr_complete", "src/subchan_demux.c:subch_demux_in"]}
{"id": "C87", "title": "Changing TRAU patterns from within the frame callback is safe, and takes effect at once only at a loss or the first frame", "statement": "The frame callback of the TRAU synchroniser may itself call osmo_trau_sync_set_pat and osmo_trau_sync_set_secondary_pat. Whatever it asks for and whenever, no access leaves the history buffer, no assertion fires, and every frame delivered has the length of the pattern in force at that moment. If it asks for changes only when told of a loss or given the first frame after a search, the way the bits are cut into deliveries makes no difference. In the code as it is, a change asked for on any later frame takes effect only with the next delivery: the rest of the present one is cut into frames of the new length and delivered without having been searched for the new pattern (refuted claim, with a witness). The confusion does not outlive that delivery: once the callback leaves the patterns alone, clean frames of the last chosen pattern are delivered from the sixth on at the latest.", "quantifier": "all callback policies (functions of everything that happened so far), all sequences of deliveries, pattern changes and timer expiries, all contents of uninitialised memory", "why_tests_cant": "all histories and callback behaviours", "anchors": ["src/trau/trau_sync.c:trau_sync_aligned", "src/trau/trau_sync.c:trau_sync_wait_align", "src/trau/trau_sync.c:trau_sync_aligned_onenter", "src/trau/trau_sync.c:osmo_trau_sync_set_pat", "src/trau/trau_sync.c:osmo_trau_sync_set_secondary_pat"]}
{"id": "C88", "title": "A call over two DAHDI spans arrives intact", "statement": "Two TRAU timeslots of DAHDI lines, configured and registered after any history, joined by a span that keeps blocks whole and in order: the octets the far driver gives the far demultiplexer are those the near driver took from the near multiplexer, octet for octet (both turn the bits around), one buffer for each block. So the packets a user gives to the TRAU converter and the multiplexer of a sub-channel on one side are what the far converter gives back, gap-free and in order, up to what is still in the queue, whatever the far demultiplexer had been through before.", "quantifier": "all calls (packets with their frames accepted by the converters), all multiplexer histories, all earlier histories of both drivers and of the far demultiplexer, all block contents received meanwhile", "why_tests_cant": "all histories and all inputs; spans several modules and drivers", "anchors": ["src/input/dahdi.c:handle_tsX_read", "src/input/dahdi.c:handle_tsX_write", "src/e1_input.c:e1inp_rx_ts", "src/e1_input.c:e1inp_tx_ts", "src/subchan_demux.c", "src/trau_mux.c", "src/trau/trau_rtp_conv.c"]}
{"id": "C89", "title": "A call over two lines of osmo-e1d, or two mISDN lines, arrives intact", "statement": "As C88 for the two other drivers: two TRAU timeslots, configured and connected after any history, joined so that blocks stay whole and in order. The octets the far driver gives the far demultiplexer are those the near driver took from the near multiplexer (osmo-e1d turns the bits of each octet around on both sides, mISDN on neither), so that the call comes out of the far converter gap-free and in order up to what is still queued. With osmo-e1d this needs the daemon to take blocks whole; with mISDN blocks may have any size, and each is answered with as many octets.", "quantifier": "all calls, all multiplexer histories, all earlier histories of both drivers and of the far demultiplexer, all block contents received meanwhile, all behaviours of kernel and daemon in those histories", "why_tests_cant": "all histories and all inputs; spans several modules and drivers", "anchors": ["src/input/e1d.c:handle_ts_trau_read", "src/input/e1d.c:handle_ts_trau_write", "src/input/misdn.c:handle_tsX_read", "src/input/misdn.c:handle_tsX_write", "src/e1_input.c:e1inp_rx_ts", "src/subchan_demux.c", "src/trau_mux.c", "src/trau/trau_rtp_conv.c"]}
{"id": "C90", "title": "RTP socket addresses, priority and statistics are those of the session's own sockets", "statement": "Once a call gave a socket's session its descriptors and the library asked for them (successful binding; successful connecting or automatic connecting outside poll mode; the same call or a later one), and as long as no later call gives the session others, osmo_rtp_socket_set_priority acts on the session's RTP descriptor and then, only if that worked, on its RTCP descriptor; osmo_rtp_get_bound_ip_port and osmo_rtp_get_bound_addr report the address of the session's RTP descriptor, the first as a number with the most significant octet first (-EIO if it is not IPv4), and write the caller's variables only on success. Whatever other sockets do is without influence. osmo_rtp_socket_stats gives each figure up to a multiple of 2^32, exactly while below, and zeros when there is none. Refuted in three cases: before any such call (in poll mode even when connected) priority and address concern descriptor 0 of the process; after a failed re-binding they concern the descriptor of the binding before; and the text of osmo_rtp_get_bound_addr is replaced by the next call for any socket", "quantifier": "all histories of calls on any number of sockets, all answers of libortp, of the system and of the resolver", "why_tests_cant": "depends on the history of calls on all sockets and on arbitrary environment answers", "anchors": ["src/trau/osmo_ortp.c:osmo_rtp_socket_set_priority", "src/trau/osmo_ortp.c:osmo_rtp_get_bound_ip_port", "src/trau/osmo_ortp.c:osmo_rtp_get_bound_addr", "src/trau/osmo_ortp.c:osmo_rtp_socket_stats", "src/trau/osmo_ortp.c:osmo_rtp_socket_bind"]}
{"id": "C91", "title": "Counters and driver data shared by a line and its copies behave as if never freed, and are freed in time", "statement": "Lines are created, copied (copies of copies too) and ended in any order. Unless a driver's line_create refuses a line: no freed counter group or driver data is ever accessed, neither through a line nor by libosmocore's timer, which goes through all counter groups; a line and its copies see the same counters, and the same driver data if it was there when the copy was made (otherwise each has its own), whichever of them ended before; both are freed exactly with the last line that points to them; the timer sees the counters of exactly the lines there are, once each. Refuted if a driver refuses a line: its counters are freed but stay in the list of counter groups, and the next tick reads freed memory", "quantifier": "all histories of creating, copying and ending lines, of allocating, writing and reading driver data, of counting and timer ticks", "why_tests_cant": "memory safety and sharing over all histories and all orders of ending", "anchors": ["src/e1_input.c:e1inp_line_create", "src/e1_input.c:e1inp_line_clone", "src/e1_input.c:e1inp_line_use_cb"]}
{"id": "C92", "title": "A client connection with the application's own write callback leaves sending to it", "statement": "With a write_cb given to ipa_client_conn_create, the library sends nothing itself: every message accepted stays in the queue, in order, until the application takes it or clears the queue. The callback is called exactly once for each event in which the socket of a connected link is writable and writability is asked for, unless in the same event reading lost the connection or the read callback returned -EBADF, and never otherwise (not by the event that completes the connection, the timer or a call of the API). It is called again at each such event until the application disables this, with nothing to send too; accepting a message enables it again", "quantifier": "all histories of calls, socket events and timer, all actions of the application inside its callbacks", "why_tests_cant": "unbounded histories with re-entrant callbacks", "anchors": ["src/input/ipa.c:ipa_client_write", "src/input/ipa.c:ipa_client_fd_cb", "src/input/ipa.c:ipa_client_conn_create2"]}
