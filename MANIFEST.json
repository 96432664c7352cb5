{
 "claims": [
  {
   "property": "C01",
   "status": "proved",
   "theorems": [
    "C01_ra2_lossless"
   ],
   "note": ""
  },
  {
   "property": "C02",
   "status": "proved",
   "theorems": [
    "C02_atrau_roundtrip",
    "C02_atrau_ra2_roundtrip"
   ],
   "note": ""
  },
  {
   "property": "C03",
   "status": "proved",
   "theorems": [
    "C03_atrau_no_sync_emulation"
   ],
   "note": ""
  },
  {
   "property": "C04",
   "status": "proved",
   "theorems": [
    "C04_atrau_decoder_total"
   ],
   "note": ""
  },
  {
   "property": "C05",
   "status": "proved",
   "theorems": [
    "C05_demux_memory_safe"
   ],
   "note": ""
  },
  {
   "property": "C06",
   "status": "proved",
   "theorems": [
    "C06_demux_delivers_exactly_the_frames",
    "C06_demux_delivers_only_frames",
    "C06_frames_of_sound",
    "C06_counter_wrap_refuted"
   ],
   "note": "exactness assumes no run of 2^32 zeros; the refuted theorem shows this is necessary"
  },
  {
   "property": "C07",
   "status": "proved",
   "theorems": [
    "C07_demux_chunking"
   ],
   "note": ""
  },
  {
   "property": "C08",
   "status": "proved",
   "theorems": [
    "C08_demux_independent",
    "C08_inactive_untouched"
   ],
   "note": ""
  },
  {
   "property": "C09",
   "status": "proved",
   "theorems": [
    "C09_activation_contract",
    "C09_activation_does_not_restart_refuted",
    "C09_reinit_keeps_sync_refuted"
   ],
   "note": ""
  },
  {
   "property": "C10",
   "status": "proved",
   "theorems": [
    "C10_mux_fifo",
    "C10_idle_filler"
   ],
   "note": ""
  },
  {
   "property": "C11",
   "status": "proved",
   "theorems": [
    "C11_mux_queue_bounded",
    "C11_mux_enqueue_evicts_oldest",
    "C11_evicts_partly_sent_refuted"
   ],
   "note": ""
  },
  {
   "property": "C12",
   "status": "proved",
   "theorems": [
    "C12_mux_memory_safe_even",
    "C12_odd_length_overflows_refuted"
   ],
   "note": ""
  },
  {
   "property": "C13",
   "status": "proved",
   "theorems": [
    "C13_mux_demux_end_to_end",
    "C13_sync_pattern_clean",
    "C13_encoded_frames_clean"
   ],
   "note": ""
  },
  {
   "property": "C14",
   "status": "proved",
   "theorems": [
    "C14_legacy_roundtrip",
    "C14_legacy_decoder_total",
    "C14_legacy_layout"
   ],
   "note": ""
  },
  {
   "property": "C15",
   "status": "proved",
   "theorems": [
    "C15_legacy_up2down",
    "C15_refused"
   ],
   "note": ""
  },
  {
   "property": "C16",
   "status": "proved",
   "theorems": [
    "C16_legacy_idle"
   ],
   "note": ""
  },
  {
   "property": "C17",
   "status": "proved",
   "theorems": [
    "C17_encode_buffer"
   ],
   "note": "Any caller memory, any n_bits; offsets whose bit count fits an int (beyond: C22_huge_offset_refuted)."
  },
  {
   "property": "C18",
   "status": "proved",
   "theorems": [
    "C18_sync_pattern",
    "C18_amr67_pattern_refuted"
   ],
   "note": "All types except AMR 6.7, for which the claim is false of the code and refuted."
  },
  {
   "property": "C19",
   "status": "proved",
   "theorems": [
    "C19_roundtrip_16k",
    "C19_idle_16k",
    "C19_idle_uplink_code_refuted",
    "C19_oam_16k_refuted"
   ],
   "note": "All 16k types except O&M (refuted: decoder reads past the frame, shifts D bits, C bits moved) and the type code of uplink idle frames (refuted)."
  },
  {
   "property": "C20",
   "status": "proved",
   "theorems": [
    "C20_roundtrip_8k",
    "C20_amr_shortened_refuted",
    "C20_amr67_refuted",
    "C20_amr67_long"
   ],
   "note": "Speech, data, O&M, AMR low and 7.4; refuted for AMR 6.7 and for AMR frames shortened by timing alignment."
  },
  {
   "property": "C21",
   "status": "proved",
   "theorems": [
    "C21_decode_16k_total",
    "C21_decode_8k_total",
    "C21_reads_past_frame_refuted",
    "C21_decode_16k_321",
    "C21_oam_long"
   ],
   "note": "All inputs except 16k O&M and 8k AMR 6.7 frames, for which both decoders read past the frame (refuted)."
  },
  {
   "property": "C22",
   "status": "proved",
   "theorems": [
    "C22_request_tables",
    "C22_frame_length",
    "C22_request_carried_out",
    "C22_cap_16k_refuted",
    "C22_huge_offset_refuted"
   ],
   "note": "Exact lengths; the 16k upper cap is wrong in the code (39 instead of 312) and refuted."
  },
  {
   "property": "C23",
   "status": "proved",
   "theorems": [
    "C23_fr_rtp_roundtrip",
    "C23_fr_twts001_roundtrip",
    "C23_fr_trau_roundtrip",
    "C23_fr_downlink_refuted"
   ],
   "note": "Uplink frames; downlink frames are not readable by trau2rtp (refuted). TW-TS-001 form assumes the libosmocodec SID classifiers agree."
  },
  {
   "property": "C24",
   "status": "proved",
   "theorems": [
    "C24_efr_rtp_roundtrip",
    "C24_efr_twts001_roundtrip",
    "C24_single_error_detected",
    "C24_parity_exact",
    "C24_parity_sent",
    "C24_efr_trau_roundtrip",
    "C24_spare_bit_refuted"
   ],
   "note": "TRAU->RTP->TRAU for frames whose spare bit D1 is 1 (refuted otherwise)."
  },
  {
   "property": "C25",
   "status": "proved",
   "theorems": [
    "C25_hr16_rtp_roundtrip",
    "C25_hr8_rtp_roundtrip",
    "C25_hr8_uplink_refused",
    "C25_hr16_empty",
    "C25_hr16_trau_roundtrip",
    "C25_single_error_detected",
    "C25_parity_sent"
   ],
   "note": "16k uplink and 8k downlink (the directions the code supports); hr_codec_law states what is assumed of libosmocodec's HR SID functions."
  },
  {
   "property": "C26",
   "status": "proved",
   "theorems": [
    "C26_trau_roundtrip",
    "C26_rtp_roundtrip",
    "C26_malformed_idle",
    "C26_total",
    "C26_edata_rx"
   ],
   "note": ""
  },
  {
   "property": "C27",
   "status": "proved",
   "theorems": [
    "C27_trau2rtp_buffer",
    "C27_rtp2trau_accepts",
    "C27_accepted_lengths"
   ],
   "note": "Malformed data payloads are accepted and give idle fill (C26_malformed_idle); all other wrong lengths are rejected."
  },
  {
   "property": "C28",
   "status": "proved",
   "theorems": [
    "C28_sync_safe",
    "C28_secondary_precondition"
   ],
   "note": "Any sequence of rx/set_pat/set_secondary(within its assertion)/timer operations; the uninitialised stack tail of rx_history_align is an arbitrary oracle."
  },
  {
   "property": "C29",
   "status": "proved",
   "theorems": [
    "C29_chunking"
   ],
   "note": "For every reachable state and every list of chunks."
  },
  {
   "property": "C30",
   "status": "proved",
   "theorems": [
    "C30_behaviour",
    "C30_acquire_and_keep",
    "C30_no_false_delivery",
    "C30_loss",
    "C30_clean_stream",
    "C30_loss_reported_once",
    "C30_refuted_second_loss",
    "C30_refuted_stale_window"
   ],
   "note": "Exact behaviour from a fresh start up to the first loss; the three-frame rule and determinacy are refuted after a loss (counter not reset, uninitialised window)."
  },
  {
   "property": "C31",
   "status": "proved",
   "theorems": [
    "C31_one_outstanding",
    "C31_silent_after_stop",
    "C31_ping_only_when_due",
    "C31_no_abort",
    "C31_right_sender",
    "C31_generic_without_send_fn_refuted"
   ],
   "note": "All histories of API calls and timer expiries at any times, timeout callbacks that call start/stop/terminate included; libosmocore FSM core modelled as documented."
  },
  {
   "property": "C32",
   "status": "proved",
   "theorems": [
    "C32_timeout_only_if_silent",
    "C32_silent_peer_detected",
    "C32_verdict",
    "C32_next_ping",
    "C32_stuck_after_callback_refuted",
    "C32_zero_wait_refuted"
   ],
   "note": "Refuted: a callback returning 0 without restart leaves the FSM stuck; wait_for_resp=0 disables detection."
  },
  {
   "property": "C33",
   "status": "proved",
   "theorems": [
    "C33_encoder_layout",
    "C33_parser_layout",
    "C33_roundtrip",
    "C33_reencode",
    "C33_peer_receives",
    "C33_wide_tei_refuted"
   ],
   "note": "All field values and formats, one- and two-octet addresses, against a separate Q.921 layout; refuted for TEIs above 127, which are truncated silently."
  },
  {
   "property": "C34",
   "status": "proved",
   "theorems": [
    "C34_receive_total",
    "C34_profiles",
    "C34_ownership_refuted"
   ],
   "note": "Every octet string in every reachable instance state; refuted: message ownership after an error is not determined by rc/error (short frames leak)."
  },
  {
   "property": "C35",
   "status": "proved",
   "theorems": [
    "C35_histories_refine_table",
    "C35_unique_entries",
    "C35_links_exclusive",
    "C35_release_exact",
    "C35_link_parameters",
    "C35_standard_profiles",
    "C35_duplicate_tei_alloc_refuted",
    "C35_deprecated_alloc_refuted"
   ],
   "note": "Refinement of an abstract link table through all histories of API calls and data-link-core callbacks; lapd_tei_alloc for an already assigned TEI is excluded and shown to break it."
  },
  {
   "property": "C36",
   "status": "proved",
   "theorems": [
    "C36_identity_request",
    "C36_other_messages",
    "C36_ri_not_echoed_refuted",
    "C36_only_unused_refuted"
   ],
   "note": "Refuted parts of Q.921: Ri echo, refusing a TEI in use, Ai=127."
  },
  {
   "property": "C37",
   "status": "proved",
   "theorems": [
    "C37_mux",
    "C37_mux_apart",
    "C37_alive_iff_referenced",
    "C37_freed_by_last_put",
    "C37_freed_is_final",
    "C37_get_put_defined",
    "C37_find",
    "C37_numbers_unique",
    "C37_create",
    "C37_counters",
    "C37_put_without_get_frees_refuted"
   ],
   "note": "All histories of all modelled calls; refuted: a put under a name that holds nothing is not rejected."
  },
  {
   "property": "C38",
   "status": "proved",
   "theorems": [
    "C38_lookup",
    "C38_rx",
    "C38_create",
    "C38_destroy",
    "C38_destroyed_is_final",
    "C38_duplicate_address_refuted"
   ],
   "note": "Histories that reconfigure only timeslots without links; duplicate addresses are accepted (refuted)."
  },
  {
   "property": "C39",
   "status": "proved",
   "theorems": [
    "C39_fifo",
    "C39_all_accounted",
    "C39_priority",
    "C39_raw_fifo",
    "C39_starvation_refuted"
   ],
   "note": "All histories; priority is by age of the link, so a younger link can starve (refuted fairness)."
  },
  {
   "property": "C40",
   "status": "proved",
   "theorems": [
    "C40_type_as_requested",
    "C40_config",
    "C40_busy_not_refused_refuted",
    "C40_trau_then_sign_refuted"
   ],
   "note": "Refusal while links are active is refuted (return code of cleanup dropped); TRAU->SIGN is refuted (timer memory reused)."
  },
  {
   "property": "C41",
   "status": "proved",
   "theorems": [
    "C41_fifo",
    "C41_stream",
    "C41_sent",
    "C41_clear",
    "C41_polling",
    "C41_server_polling",
    "C41_server_fifo",
    "C41_server_sent",
    "C41_short_write_refuted",
    "C41_eagain_refuted",
    "C41_early_send_stalls_refuted",
    "C41_server_error_loses_refuted"
   ],
   "note": "FIFO and exactly-once for every socket behaviour; loss on short write/EAGAIN and stall of messages accepted while connecting are refuted parts."
  },
  {
   "property": "C42",
   "status": "proved",
   "theorems": [
    "C42_life",
    "C42_open",
    "C42_safe",
    "C42_server_closed_once",
    "C42_ccm",
    "C42_destroy_open_refuted",
    "C42_destroy_in_send_failure_refuted",
    "C42_close_in_read_refuted",
    "C42_ccm_error_refuted",
    "C42_server_queue_leak_refuted"
   ],
   "note": "All histories; each usage rule shown necessary."
  },
  {
   "property": "C43",
   "status": "proved",
   "theorems": [
    "C43_timeslots",
    "C43_identity",
    "C43_identify",
    "C43_out_of_range",
    "C43_refuted_out_of_range",
    "C43_refuted_old_number"
   ],
   "note": "All timeslots and TRX numbers, all histories. Connecting a TRX number out of range is refused without effect only if error messages are not output; otherwise the message itself reads a null pointer (refuted theorem), as does a PONG on a descriptor of the older interface with a number outside 1..32."
  },
  {
   "property": "C44",
   "status": "proved",
   "theorems": [
    "C44_sync_16",
    "C44_data_16",
    "C44_refused_16",
    "C44_zero_cells_16_refuted",
    "C44_sync_64",
    "C44_data_64",
    "C44_data9_64",
    "C44_refused_64",
    "C44_control_sync_64_refuted",
    "C44_control_data_64_refuted",
    "C44_control_data9_64_refuted"
   ],
   "note": "Layout per the figures for every field value; what is not as documented (0-cells at 16k; C8, PC, FN_SS bit 16 and one filler cell at 64k) is stated exactly and refuted."
  },
  {
   "property": "C45",
   "status": "proved",
   "theorems": [
    "C45_16",
    "C45_64",
    "C45_bep_refuted",
    "C45_mcs9_refuted"
   ],
   "note": "Both directions (accepted iff documented, contents unique) for every 320/1280-bit block. Refuted: mean BEP is lost; an MCS-9 block is corrupted."
  },
  {
   "property": "C46",
   "status": "proved",
   "theorems": [
    "C46_not_routed",
    "C46_src",
    "C46_dst",
    "C46_symmetric",
    "C46_refuted_translation"
   ],
   "note": "All histories and identifiers. The translation of a non-symmetric route is refuted: identifier 0 is sent instead."
  },
  {
   "property": "C47",
   "status": "proved",
   "theorems": [
    "C47_counters",
    "C47_instance_del",
    "C47_route_add",
    "C47_route_add_accepted",
    "C47_route_del",
    "C47_names",
    "C47_instance_add",
    "C47_addressed",
    "C47_defined",
    "C47_refuted_duplicate",
    "C47_refuted_overlap",
    "C47_refuted_last_route",
    "C47_refuted_oldest_route",
    "C47_refuted_source_closed",
    "C47_refuted_unknown_instance",
    "C47_refuted_long_names",
    "C47_refuted_wide_identifier"
   ],
   "note": "All histories; every side condition shown necessary by a refuted theorem."
  },
  {
   "property": "C48",
   "status": "proved",
   "theorems": [
    "C48_rx",
    "C48_before_update",
    "C48_rx_history",
    "C48_tx",
    "C48_roundtrip",
    "C48_altc",
    "C48_new_connection",
    "C48_fds",
    "C48_pending",
    "C48_update_failed",
    "C48_idle",
    "C48_rx_oversize_refuted",
    "C48_fds_reconnect_refuted",
    "C48_fd0_refuted",
    "C48_update_twice_refuted",
    "C48_nesting_refuted",
    "C48_pending_reconnect_refuted",
    "C48_send_before_update_refuted"
   ],
   "note": "All histories and kernel answers; descriptor safety for a line updated once on a kernel that lets it reconnect - each condition shown necessary by a refuted theorem."
  },
  {
   "property": "C49",
   "status": "proved",
   "theorems": [
    "C49_reading_unique",
    "C49_returns",
    "C49_lapd_record",
    "C49_fake_record",
    "C49_fake_record_any",
    "C49_files",
    "C49_capture",
    "C49_open",
    "C49_shutdown",
    "C49_fake_direction_refuted",
    "C49_snaplen_refuted",
    "C49_short_write_refuted",
    "C49_clone_refuted",
    "C49_shutdown_refuted",
    "C49_same_fd_refuted",
    "C49_late_line_refuted",
    "C49_open_refuted"
   ],
   "note": "All histories with distinct descriptors and complete writes; each condition shown necessary. Little-endian host."
  },
  {
   "property": "C50",
   "status": "proved",
   "theorems": [
    "C50_raw_no_stall",
    "C50_no_stall",
    "C50_destroy_stalls_refuted"
   ],
   "note": "For histories that reconfigure only empty timeslots and destroy links only while no other link waits (the latter shown necessary)."
  },
  {
   "property": "C51",
   "status": "proved",
   "theorems": [
    "C51_patterns",
    "C51_ericsson",
    "C51_encoder_stream",
    "C51_edata_refuted"
   ],
   "note": "All bit sequences; all streams of encoded frames of nominal length (timing-adjusted frames excluded); E-TRAU data frames refuted."
  },
  {
   "property": "C52",
   "status": "proved",
   "theorems": [
    "C52_speech_uplink",
    "C52_speech_downlink",
    "C52_hr16",
    "C52_hr8",
    "C52_data",
    "C25_parity_sent",
    "C52_idle_on_line_refuted"
   ],
   "note": "All accepted packets; libosmocodec's SID classifiers are parameters."
  },
  {
   "property": "C53",
   "status": "proved",
   "theorems": [
    "C53_safe",
    "C53_closed_once",
    "C53_close",
    "C53_timeout",
    "C53_refuted_reconnect",
    "C53_refuted_identified_twice",
    "C53_refuted_oml_restart",
    "C53_refuted_trx_number",
    "C53_refuted_not_configured",
    "C53_refuted_sign_link_error"
   ],
   "note": "All histories in which the application and the peer follow the stated rules; each rule shown necessary by a refuted theorem."
  },
  {
   "property": "C54",
   "status": "proved",
   "theorems": [
    "C54_send",
    "C54_wait",
    "C54_order",
    "C54_drop",
    "C54_attach",
    "C54_receive"
   ],
   "note": "All reachable states."
  },
  {
   "property": "C55",
   "status": "proved",
   "theorems": [
    "C55_no_dangling",
    "C55_safe",
    "C55_link_without_stream",
    "C55_life",
    "C55_alive",
    "C55_one_stream",
    "C55_connect",
    "C55_update",
    "C55_close",
    "C55_lost",
    "C55_timeout",
    "C55_refuted_empty_ccm",
    "C55_refuted_connect_in_down",
    "C55_refuted_lost_stream",
    "C55_refuted_close_first",
    "C55_refuted_update_in_down"
   ],
   "note": "All histories; the stronger parts for applications that open no streams in sign-link-down. Each rule shown necessary by a refuted theorem."
  },
  {
   "property": "C56",
   "status": "proved",
   "theorems": [
    "C56_order",
    "C56_send",
    "C56_drop",
    "C56_no_queue",
    "C56_receive"
   ],
   "note": "All reachable states."
  },
  {
   "property": "C57",
   "status": "proved",
   "theorems": [
    "C57_start",
    "C57_before_update",
    "C57_life",
    "C57_no_leak",
    "C57_one_each",
    "C57_disconnected",
    "C57_retry",
    "C57_recover",
    "C57_update",
    "C57_unregister",
    "C57_lapd",
    "C57_client",
    "C57_sa_bits",
    "C57_loss",
    "C57_sa_bits_crash",
    "C57_shrinking",
    "C57_no_update",
    "C57_half_update",
    "C57_own_timeslot",
    "C57_own_timeslot_trau"
   ],
   "note": "All histories; conditions of C57_unregister and C57_lapd shown necessary by the last six theorems."
  },
  {
   "property": "C58",
   "status": "proved",
   "theorems": [
    "C58_trau",
    "C58_fifo",
    "C58_own",
    "C58_rx",
    "C58_rx_only",
    "C58_progress",
    "C58_accept",
    "C58_config",
    "C58_write",
    "C58_lapd_write",
    "C58_no_stall",
    "C58_update_stalls",
    "C58_reconnect_stalls",
    "C58_partial_write",
    "C58_i460_never_read"
   ],
   "note": "All histories; the last four show what the code does not do."
  },
  {
   "property": "C59",
   "status": "proved",
   "theorems": [
    "C59_encode",
    "C59_idle",
    "C59_oam_8k",
    "C59_decode_16k",
    "C59_decode_8k",
    "C59_oam_8k_refuted",
    "C59_oam_16k_refuted",
    "C59_amr67_refuted"
   ],
   "note": "Every type but those the refuted theorems name."
  },
  {
   "property": "C60",
   "status": "proved",
   "theorems": [
    "C60_start",
    "C60_life",
    "C60_own",
    "C60_writes",
    "C60_numbering",
    "C60_dense",
    "C60_channel",
    "C60_exclusive",
    "C60_update",
    "C60_no_retry",
    "C60_no_crash",
    "C60_links_left",
    "C60_update_succeeds",
    "C60_port_out_of_table",
    "C60_wide_span",
    "C60_descriptor_zero",
    "C60_failed_open_stays",
    "C60_half_update",
    "C60_no_update",
    "C60_own_timeslot_stray",
    "C60_own_timeslot_mux",
    "C60_own_timeslot_link",
    "C60_links_left_reached",
    "C60_lapd_stays",
    "C60_port_moved",
    "C60_renumbered"
   ],
   "note": "All histories; C60_port_out_of_table and those after it are refutations: what the code does not do."
  },
  {
   "property": "C61",
   "status": "proved",
   "theorems": [
    "C61_fifo",
    "C61_rx",
    "C61_rx_only",
    "C61_events",
    "C61_read_error",
    "C61_tx_hdlc",
    "C61_tx_raw",
    "C61_tx_sign",
    "C61_tx_trau",
    "C61_no_stall",
    "C61_update_stalls",
    "C61_unlink_stalls",
    "C61_starvation",
    "C61_failed_write_lost"
   ],
   "note": "All histories; C61_update_stalls and those after it show what the code does not do."
  },
  {
   "property": "C62",
   "status": "proved",
   "theorems": [
    "C62_start",
    "C62_life",
    "C62_own",
    "C62_placed",
    "C62_served",
    "C62_update",
    "C62_failed",
    "C62_dchannel",
    "C62_safe",
    "C62_retry_refuted",
    "C62_dchannel_refuted",
    "C62_port_refuted",
    "C62_i460_refuted",
    "C62_sa_refuted",
    "C62_order_refuted",
    "C62_callback_refuted",
    "C62_links_refuted",
    "C62_no_card"
   ],
   "note": "All histories. The theorems named _refuted show what the code does not do."
  },
  {
   "property": "C63",
   "status": "proved",
   "theorems": [
    "C63_fifo",
    "C63_unconfirmed",
    "C63_written_when_idle",
    "C63_accept",
    "C63_ignored",
    "C63_config",
    "C63_flight",
    "C63_address",
    "C63_content",
    "C63_asked",
    "C63_asked_sign",
    "C63_rx",
    "C63_rx_only",
    "C63_written",
    "C63_signalling",
    "C63_timer",
    "C63_confirm",
    "C63_trau",
    "C63_channel",
    "C63_short_refuted",
    "C63_early_refuted",
    "C63_unlink_refuted",
    "C63_leak_refuted",
    "C63_lost_confirm"
   ],
   "note": "All histories. The theorems named _refuted show what the code does not do."
  },
  {
   "property": "C64",
   "status": "proved",
   "theorems": [
    "C64_alarm",
    "C64_signal",
    "C64_only",
    "C64_raw_refuted"
   ],
   "note": "All histories. The theorems named _refuted show what the code does not do."
  },
  {
   "property": "C65",
   "status": "proved",
   "theorems": [
    "C65_rx",
    "C65_payload",
    "C65_unique",
    "C65_pieces",
    "C65_wire",
    "C65_round_trip",
    "C65_overflow",
    "C65_overflow_refuted",
    "C65_error_refuted",
    "C65_freed",
    "C65_short_refuted"
   ],
   "note": "All histories. The theorems named _refuted show what the code does not do."
  },
  {
   "property": "C66",
   "status": "proved",
   "theorems": [
    "C66_fifo",
    "C66_one_per_send",
    "C66_prompt",
    "C66_update",
    "C66_twice",
    "C66_stall_refuted",
    "C66_leak_refuted",
    "C66_again_refuted",
    "C66_swap_refuted",
    "C66_no_callback_refuted"
   ],
   "note": "All histories. The theorems named _refuted show what the code does not do."
  },
  {
   "property": "C67",
   "status": "proved",
   "theorems": [
    "C67_callback",
    "C67_clock",
    "C67_quiet",
    "C67_freed",
    "C67_rx",
    "C67_select",
    "C67_send",
    "C67_skip",
    "C67_connect",
    "C67_poll",
    "C67_ready",
    "C67_asks",
    "C67_set_clock",
    "C67_jitter",
    "C67_bind",
    "C67_free",
    "C67_once",
    "C67_uaf",
    "C67_reconnect_refuted",
    "C67_free_in_callback_refuted",
    "C67_port0_refuted",
    "C67_failed_refuted",
    "C67_lost_refuted"
   ],
   "note": "All histories. The theorems named _refuted show what the code does not do."
  },
  {
   "property": "C68",
   "status": "proved",
   "theorems": [
    "C68_words",
    "C68_timeslots",
    "C68_round_trip",
    "C68_text",
    "C68_refused",
    "C68_others",
    "C68_sets",
    "C68_sets_global",
    "C68_crash",
    "C68_no_pcap_refuted",
    "C68_unknown",
    "C68_files",
    "C68_numbers",
    "C68_show",
    "C68_socket_refuted",
    "C68_globals_refuted",
    "C68_name_refuted",
    "C68_rs232_refuted",
    "C68_dscp_refuted",
    "C68_show_lines"
   ],
   "note": "All histories. The theorems named _refuted show what the code does not do."
  },
  {
   "property": "C69",
   "status": "proved",
   "theorems": [
    "C69_call",
    "C69_downlink_refuted"
   ],
   "note": "All payload sequences and all cuts of the bit stream. The theorem named _refuted shows what the code does not do."
  },
  {
   "property": "C70",
   "status": "proved",
   "theorems": [
    "C70_subslot_call"
   ],
   "note": "All payload sequences, all histories of the multiplexer and all cuts of the octet stream."
  },
  {
   "property": "C71",
   "status": "proved",
   "theorems": [
    "C71_crc3",
    "C71_crc16",
    "C71_hr",
    "C71_efr",
    "C71_cs1_16",
    "C71_cs1_64",
    "C71_cs1_refused",
    "C71_hr_burst",
    "C71_hr_two_errors_refuted",
    "C71_cs2_unprotected_refuted"
   ],
   "note": "All frames and all error patterns, with an exact characterisation. Theorems named _refuted show what the codes do not do."
  },
  {
   "property": "C72",
   "status": "proved",
   "theorems": [
    "C72_never_at_fault",
    "C72_no_dangling",
    "C72_descriptors",
    "C72_offered",
    "C72_address",
    "C72_open",
    "C72_close",
    "C72_accept",
    "C72_reopen_refuted",
    "C72_any_address_refuted",
    "C72_proxy",
    "C72_proxy_refuted"
   ],
   "note": "All histories. Theorems named _refuted show what the code does not do."
  },
  {
   "property": "C73",
   "status": "proved",
   "theorems": [
    "C73_keepalive",
    "C73_configured",
    "C73_no_keepalive",
    "C73_update",
    "C73_update_succeeds",
    "C73_again",
    "C73_free",
    "C73_in_service",
    "C73_no_dangling",
    "C73_stuck_refuted",
    "C73_one_line",
    "C73_rebind_refuted",
    "C73_role_refuted",
    "C73_freed_refuted",
    "C73_swapped_refuted"
   ],
   "note": "All histories. Theorems named _refuted show what the code does not do."
  },
  {
   "property": "C74",
   "status": "proved",
   "theorems": [
    "C74_no_instance",
    "C74_minus",
    "C74_refused",
    "C74_refused_unknown",
    "C74_refused_text",
    "C74_digit",
    "C74_negative",
    "C74_huge",
    "C74_written",
    "C74_round_trip",
    "C74_names",
    "C74_instance",
    "C74_route",
    "C74_no_route",
    "C74_identifiers",
    "C74_show_routes",
    "C74_show_refuted",
    "C74_port_refuted",
    "C74_long_names_refuted",
    "C74_duplicate_refuted",
    "C74_not_in_effect_refuted"
   ],
   "note": "All histories. Theorems named _refuted show what the code does not do."
  },
  {
   "property": "C75",
   "status": "proved",
   "theorems": [
    "C75_no_crosstalk",
    "C75_safe",
    "C75_indications",
    "C75_frames",
    "C75_down",
    "C75_carried",
    "C75_wide_tei_refuted",
    "C75_after_release_refuted",
    "C75_config_refuted",
    "C75_second_link"
   ],
   "note": "All histories. The data link core is any that obeys core_law of SigSpec.v. Theorems named _refuted show what the code does not do."
  },
  {
   "property": "C76",
   "status": "proved",
   "theorems": [
    "C76_event",
    "C76_alarms_known",
    "C76_other_driver_refuted",
    "C76_range_refuted",
    "C76_wide_port_refuted"
   ],
   "note": "All histories of events. Theorems named _refuted show what the code does not do."
  },
  {
   "property": "C77",
   "status": "proved",
   "theorems": [
    "C77_no_false_alarm",
    "C77_pings",
    "C77_silent_peer",
    "C77_sharp"
   ],
   "note": "All timed executions. Time unit arbitrary; the queue of the sender and the network are one delay; libosmocore answers a PING at once."
  },
  {
   "property": "C78",
   "status": "proved",
   "theorems": [
    "C78_every_history",
    "C78_find",
    "C78_again_refuted",
    "C78_init_again",
    "C78_lines",
    "C78_lines_stay"
   ],
   "note": "All histories, repeated registrations included; out of memory not modelled."
  },
  {
   "property": "C79",
   "status": "proved",
   "theorems": [
    "C79_uplink_16",
    "C79_uplink_64",
    "C79_needs_zeros",
    "C79_mcs9_refuted",
    "C79_join_refuted"
   ],
   "note": "All streams; timing adjustment (frames of other lengths) not included. Theorems named _refuted show what does not hold."
  },
  {
   "property": "C80",
   "status": "proved",
   "theorems": [
    "C80_each_link_ends_once",
    "C80_every_used_link_ends",
    "C80_no_use_after_release",
    "C80_order"
   ],
   "note": "All histories, no assumption on TEI assignment."
  },
  {
   "property": "C81",
   "status": "proved",
   "theorems": [
    "C81_misdn",
    "C81_misdn_put_refuted",
    "C81_misdn_gone_refuted",
    "C81_dahdi",
    "C81_dahdi_put_refuted",
    "C81_dahdi_moved_refuted",
    "C81_e1d",
    "C81_e1d_put_refuted",
    "C81_e1d_lost_refuted"
   ],
   "note": "mISDN, DAHDI (span of constant size, line not moved, descriptor 0 in use) and osmo-e1d (connected at the update; delay timer not modelled). The _refuted theorems show that each assumption is needed."
  },
  {
   "property": "C82",
   "status": "proved",
   "theorems": [
    "C82_up",
    "C82_down"
   ],
   "note": "While both ends keep the connection and the link (throughout); the segmentation of libosmocore is modelled, see DESIGN.md."
  },
  {
   "property": "C83",
   "status": "proved",
   "theorems": [
    "C83_lists",
    "C83_once",
    "C83_clone_lookup",
    "C83_clone_create",
    "C83_clone_linked",
    "C83_retyped",
    "C83_retyped_back",
    "C83_example"
   ],
   "note": "Under the two conditions the statement names; C83_clone_*, C83_retyped* show that each is needed."
  },
  {
   "property": "C84",
   "status": "proved",
   "theorems": [
    "C84_spacing",
    "C84_rate",
    "C84_progress",
    "C84_latency",
    "C84_destroy_refuted",
    "C84_starved_refuted",
    "C84_example"
   ],
   "note": "One timeslot; starting from a timeslot configured for signalling whose timer memory is sound (C40 has the case after TRAU)."
  },
  {
   "property": "C85",
   "status": "proved",
   "theorems": [
    "C85_timer_invisible",
    "C85_resync",
    "C85_resync_keeps",
    "C85_ones_harmless",
    "C85_stale_refuted",
    "C85_example"
   ],
   "note": "Patterns of at most 640 bits; the emulation hypothesis is about positions inside the clean run only."
  },
  {
   "property": "C86",
   "status": "proved",
   "theorems": [
    "C86_recovers",
    "C86_mux",
    "C86_example",
    "C86_call_after_any_past",
    "C86_call_example"
   ],
   "note": ""
  },
  {
   "property": "C87",
   "status": "proved",
   "theorems": [
    "C87_callback_safe",
    "C87_quiet_callback",
    "C87_prompt_chunking",
    "C87_refuted_late_change",
    "C87_resync"
   ],
   "note": ""
  },
  {
   "property": "C88",
   "status": "proved",
   "theorems": [
    "C88_dahdi_transparent",
    "C88_call_over_dahdi"
   ],
   "note": ""
  },
  {
   "property": "C89",
   "status": "proved",
   "theorems": [
    "C89_e1d_transparent",
    "C89_call_over_e1d",
    "C89_misdn_transparent",
    "C89_call_over_misdn"
   ],
   "note": ""
  },
  {
   "property": "C90",
   "status": "proved",
   "theorems": [
    "C90_priority",
    "C90_ip_port",
    "C90_addr",
    "C90_text",
    "C90_text_refuted",
    "C90_stale",
    "C90_unbound_refuted",
    "C90_rebind_refuted",
    "C90_stats",
    "C90_stats_exact"
   ],
   "note": "the three cases in which it fails are proved as *_refuted"
  },
  {
   "property": "C91",
   "status": "proved",
   "theorems": [
    "C91_as_if_kept",
    "C91_freed_in_time",
    "C91_groups",
    "C91_refused_refuted"
   ],
   "note": "the case in which it fails is proved as C91_refused_refuted; talloc as documented"
  },
  {
   "property": "C92",
   "status": "proved",
   "theorems": [
    "C92_queue",
    "C92_called",
    "C92_not_called",
    "C92_again",
    "C92_enabled"
   ],
   "note": ""
  }
 ]
}