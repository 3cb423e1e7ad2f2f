{
 "claims": [
  {
   "property": "C01",
   "status": "proved",
   "theorems": [
    "C01_decode_inverts_canonical",
    "C01_empty_string_refuted"
   ],
   "note": "guard on empty strings shown necessary by C01_empty_string_refuted"
  },
  {
   "property": "C02",
   "status": "proved",
   "theorems": [
    "C02_decode_locality"
   ],
   "note": ""
  },
  {
   "property": "C03",
   "status": "proved",
   "theorems": [
    "C03_decode_decided",
    "C03_list_hangs",
    "C03_no_list_no_hang"
   ],
   "note": "call-stack depth of the real decoder (stack overflow on deep nesting) is not modelled"
  },
  {
   "property": "C04",
   "status": "proved",
   "theorems": [
    "C04_truncated_panics"
   ],
   "note": ""
  },
  {
   "property": "C05",
   "status": "proved",
   "theorems": [
    "C05_integer_range",
    "C05_length_prefix_range"
   ],
   "note": ""
  },
  {
   "property": "C06",
   "status": "proved",
   "theorems": [
    "C06_lookup_last_binding"
   ],
   "note": ""
  },
  {
   "property": "C07",
   "status": "proved",
   "theorems": [
    "C07_encoders_canonical",
    "C07_string_canonical_iff_ascii",
    "C07_ascii_string"
   ],
   "note": ""
  },
  {
   "property": "C08",
   "status": "proved",
   "theorems": [
    "C08_order_independent",
    "C08_map_canonical",
    "C08_map_round_trip"
   ],
   "note": ""
  },
  {
   "property": "C09",
   "status": "proved",
   "theorems": [
    "C09_info_round_trip",
    "C09_info_encoding_canonical",
    "C09_non_ascii_name_refuted"
   ],
   "note": "ASCII guard shown necessary by C09_non_ascii_name_refuted"
  },
  {
   "property": "C10",
   "status": "proved",
   "theorems": [
    "C10_info_hash_of_bytes",
    "C10_extra_key_changes_bytes"
   ],
   "note": ""
  },
  {
   "property": "C11",
   "status": "proved",
   "theorems": [
    "C11_info_acceptance",
    "C11_not_a_dictionary",
    "C11_files",
    "C11_no_length_aborts",
    "C11_no_length_accepted_refuted",
    "C11_malformed_file_dropped_refuted"
   ],
   "note": ""
  },
  {
   "property": "C12",
   "status": "proved",
   "theorems": [
    "C12_bitfield_bits",
    "C12_bitfield_injective"
   ],
   "note": ""
  },
  {
   "property": "C13",
   "status": "proved",
   "theorems": [
    "C13_request_layout",
    "C13_piece_parse",
    "C13_every_long_body",
    "C13_short_panics"
   ],
   "note": ""
  },
  {
   "property": "C14",
   "status": "proved",
   "theorems": [
    "C14_handshake_layout",
    "C14_handshake_parse",
    "C14_short_panics"
   ],
   "note": ""
  },
  {
   "property": "C15",
   "status": "proved",
   "theorems": [
    "C15_metadata_request"
   ],
   "note": ""
  },
  {
   "property": "C16",
   "status": "proved",
   "theorems": [
    "C16_sent_messages_are_frames",
    "C16_frames_self_delimiting",
    "C16_frame_sequences"
   ],
   "note": ""
  },
  {
   "property": "C17",
   "status": "proved",
   "theorems": [
    "C17_new_raw_outcomes",
    "C17_new_raw_content"
   ],
   "note": ""
  },
  {
   "property": "C18",
   "status": "proved",
   "theorems": [
    "C18_any_characters",
    "C18_hex_magnet",
    "C18_rejected",
    "C18_sixty_bytes_panics",
    "C18_undecoded",
    "C18_total",
    "C18_non_hex_accepted_refuted"
   ],
   "note": "non-hexadecimal characters are not rejected: C18_non_hex_accepted_refuted"
  },
  {
   "property": "C19",
   "status": "proved",
   "theorems": [
    "C19_compact_peers"
   ],
   "note": ""
  },
  {
   "property": "C20",
   "status": "proved",
   "theorems": [
    "C20_reachable",
    "C20_endpoint_parses",
    "C20_endpoint_injective",
    "C20_address_texts",
    "C20_other_texts_panic"
   ],
   "note": ""
  },
  {
   "property": "C21",
   "status": "proved",
   "theorems": [
    "C21_connect_request",
    "C21_announce_request",
    "C21_left_never_said"
   ],
   "note": ""
  },
  {
   "property": "C22",
   "status": "proved",
   "theorems": [
    "C22_udp_exchange",
    "C22_transaction_id",
    "C22_answers_unchecked",
    "C22_silence_blocks",
    "C22_single_peer_rejected_refuted"
   ],
   "note": ""
  },
  {
   "property": "C23",
   "status": "proved",
   "theorems": [
    "C23_peer_id",
    "C23_query_read",
    "C23_query_read_refuted",
    "C23_percent_encoding",
    "C23_injective",
    "C23_each_byte",
    "C23_byte_by_byte",
    "C23_query_faithful"
   ],
   "note": "for a tracker URL without a query (all built-in ones); with one the request cannot be read: C23_query_read_refuted"
  },
  {
   "property": "C24",
   "status": "proved",
   "theorems": [
    "C24_sizes_overflow",
    "C24_place_overflow",
    "C24_piece_split",
    "C24_byte_placement",
    "C24_outside",
    "C24_overflow_refuted"
   ],
   "note": ""
  },
  {
   "property": "C25",
   "status": "proved",
   "theorems": [
    "C25_reconstruct",
    "C25_empty_files",
    "C25_empty_file_missing_refuted",
    "C25_short_write_refuted",
    "C25_conflicting_paths_refuted"
   ],
   "note": "stated for complete writes by the OS; short writes are ignored by the code: C25_short_write_refuted; zero-length files: exact condition C25_empty_files"
  },
  {
   "property": "C26",
   "status": "proved",
   "theorems": [
    "C26_nothing_else",
    "C26_resume",
    "C26_no_damage",
    "C26_stale_tail_refuted"
   ],
   "note": "longer pre-existing files keep their tail: C26_stale_tail_refuted"
  },
  {
   "property": "C27",
   "status": "proved",
   "theorems": [
    "C27_inside_working_directory",
    "C27_success",
    "C27_traversal_refuted"
   ],
   "note": "for plain names; otherwise false: C27_traversal_refuted"
  },
  {
   "property": "C28",
   "status": "proved",
   "theorems": [
    "C28_pieces_partition",
    "C28_piece_length",
    "C28_zero_piece_length_refuted",
    "C28_overflow_refuted"
   ],
   "note": ""
  },
  {
   "property": "C29",
   "status": "proved",
   "theorems": [
    "C29_blocks_tile",
    "C29_unaligned_refuted",
    "C29_large_piece_refuted"
   ],
   "note": ""
  },
  {
   "property": "C30",
   "status": "proved",
   "theorems": [
    "C30_buffered_message",
    "C30_buffered_sequence",
    "C30_buffered_handshake"
   ],
   "note": ""
  },
  {
   "property": "C31",
   "status": "proved",
   "theorems": [
    "C31_read_error",
    "C31_segmented_body",
    "C31_incomplete_body"
   ],
   "note": ""
  },
  {
   "property": "C32",
   "status": "proved",
   "theorems": [
    "C32_end_is_choke",
    "C32_keep_alive",
    "C32_split_handshake",
    "C32_huge_message",
    "C32_segmentation_refuted"
   ],
   "note": ""
  },
  {
   "property": "C33",
   "status": "proved",
   "theorems": [
    "C33_state_from_history",
    "C33_state_from_socket"
   ],
   "note": ""
  },
  {
   "property": "C34",
   "status": "proved",
   "theorems": [
    "C34_initialisation",
    "C34_second_handshake_refuted"
   ],
   "note": ""
  },
  {
   "property": "C35",
   "status": "proved",
   "theorems": [
    "C35_piece_download",
    "C35_metadata_download",
    "C35_block_messages",
    "C35_arrival_order_refuted",
    "C35_unsolicited_refuted",
    "C35_foreign_blocks_refuted"
   ],
   "note": ""
  },
  {
   "property": "C36",
   "status": "proved",
   "theorems": [
    "C36_piece_terminates",
    "C36_metadata_terminates",
    "C36_busy_peer",
    "C36_no_ut_metadata_refuted"
   ],
   "note": ""
  },
  {
   "property": "C37",
   "status": "proved",
   "theorems": [
    "C37_verified",
    "C37_download",
    "C37_missing_hash_refuted"
   ],
   "note": ""
  },
  {
   "property": "C38",
   "status": "proved",
   "theorems": [
    "C38_pool_is_fifo"
   ],
   "note": ""
  },
  {
   "property": "C39",
   "status": "proved",
   "theorems": [
    "C39_every_piece_somewhere",
    "C39_exactly_one_place",
    "C39_aborted_worker",
    "C39_lost_piece_refuted"
   ],
   "note": ""
  },
  {
   "property": "C40",
   "status": "proved",
   "theorems": [
    "C40_concurrency"
   ],
   "note": ""
  },
  {
   "property": "C41",
   "status": "proved",
   "theorems": [
    "C41_at_most_once",
    "C41_exactly_once",
    "C41_writer_queue"
   ],
   "note": ""
  },
  {
   "property": "C42",
   "status": "proved",
   "theorems": [
    "C42_nothing_else",
    "C42_disk",
    "C42_all_written",
    "C42_restart"
   ],
   "note": ""
  },
  {
   "property": "C43",
   "status": "proved",
   "theorems": [
    "C43_eleven_peers",
    "C43_metadata",
    "C43_ten_peers"
   ],
   "note": ""
  },
  {
   "property": "C44",
   "status": "proved",
   "theorems": [
    "C44_preference",
    "C44_never_fails",
    "C44_requests",
    "C44_reported_peers"
   ],
   "note": ""
  },
  {
   "property": "C45",
   "status": "proved",
   "theorems": [
    "C45_counters",
    "C45_duplicate_refuted"
   ],
   "note": ""
  },
  {
   "property": "C46",
   "status": "proved",
   "theorems": [
    "C46_no_deadlock",
    "C46_enabled",
    "C46_monotone",
    "C46_success",
    "C46_bounded_work",
    "C46_at_rest",
    "C46_can_finish",
    "C46_stall",
    "C46_stall_refuted"
   ],
   "note": ""
  },
  {
   "property": "C47",
   "status": "proved",
   "theorems": [
    "C47_extension_message"
   ],
   "note": ""
  },
  {
   "property": "C48",
   "status": "proved",
   "theorems": [
    "C48_piece_obtained",
    "C48_buffered_peer",
    "C48_seed",
    "C48_torrent_completes"
   ],
   "note": ""
  },
  {
   "property": "C49",
   "status": "proved",
   "theorems": [
    "C49_metadata_obtained",
    "C49_seed"
   ],
   "note": ""
  },
  {
   "property": "C50",
   "status": "proved",
   "theorems": [
    "C50_metadata_unverified_refuted",
    "C50_other_torrent"
   ],
   "note": "the wished-for check is refuted for every info hash (C50_metadata_unverified_refuted); the consequence is proved"
  },
  {
   "property": "C51",
   "status": "proved",
   "theorems": [
    "C51_reads_back",
    "C51_trailing_space",
    "C51_restart",
    "C51_elsewhere"
   ],
   "note": "serde_json (library) is modelled from its documentation; see DESIGN.md"
  },
  {
   "property": "C52",
   "status": "proved",
   "theorems": [
    "C52_interrupted_save",
    "C52_never_starts_again",
    "C52_harmless_refuted"
   ],
   "note": "the wished-for property is refuted (C52_harmless_refuted); the exact behaviour at every cut point is proved"
  },
  {
   "property": "C53",
   "status": "proved",
   "theorems": [
    "C53_cache_trusted",
    "C53_cache_verified_refuted",
    "C53_own_file"
   ],
   "note": "file names are distinct (C53_own_file); the content check is refuted (C53_cache_verified_refuted)"
  },
  {
   "property": "C54",
   "status": "proved",
   "theorems": [
    "C54_link_starts_torrent",
    "C54_any_request",
    "C54_torrents_are_requests",
    "C54_always_answered_refuted",
    "C54_once_refuted"
   ],
   "note": "two wishes are refuted: C54_always_answered_refuted, C54_once_refuted"
  },
  {
   "property": "C55",
   "status": "proved",
   "theorems": [
    "C55_right_hash",
    "C55_at_most_once",
    "C55_everybody"
   ],
   "note": "C55_everybody assumes that no mailbox ever overflows (mailbox overflow is an input of the model)"
  },
  {
   "property": "C56",
   "status": "proved",
   "theorems": [
    "C56_only_answers",
    "C56_all_answers"
   ],
   "note": ""
  },
  {
   "property": "C57",
   "status": "proved",
   "theorems": [
    "C57_dead_for_good",
    "C57_all_dead",
    "C57_recovers_refuted"
   ],
   "note": "the wish is refuted (C57_recovers_refuted); the exact behaviour is proved"
  },
  {
   "property": "C58",
   "status": "proved",
   "theorems": [
    "C58_as_alone",
    "C58_common_disk",
    "C58_kept_apart_refuted"
   ],
   "note": "disjointness is a hypothesis; the program does not ensure it (C58_kept_apart_refuted)"
  },
  {
   "property": "C59",
   "status": "proved",
   "theorems": [
    "C59_http",
    "C59_udp",
    "C59_udp_few",
    "C59_other_scheme",
    "C59_http_only",
    "C59_aborts_iff"
   ],
   "note": ""
  },
  {
   "property": "C60",
   "status": "proved",
   "theorems": [
    "C60_digest",
    "C60_handshake_length",
    "C60_padding",
    "C60_is_sha1"
   ],
   "note": "crate sha1 is modelled from FIPS 180-4"
  },
  {
   "property": "C61",
   "status": "proved",
   "theorems": [
    "C61_refused",
    "C61_piece_session",
    "C61_metadata_session",
    "C61_requests_inside",
    "C61_volume",
    "C61_needs_unchoke",
    "C61_client_output",
    "C61_never_serves",
    "C61_announced_size_refuted"
   ],
   "note": "sessions that return; the announced size is refuted by C61_announced_size_refuted"
  },
  {
   "property": "C62",
   "status": "proved",
   "theorems": [
    "C62_every_torrent"
   ],
   "note": "says that completion is possible; that it must happen once everything has come to rest is C63/C46"
  },
  {
   "property": "C63",
   "status": "proved",
   "theorems": [
    "C63_at_rest",
    "C63_finished_stays"
   ],
   "note": "disjointness of torrents is a hypothesis, as in C58"
  },
  {
   "property": "C64",
   "status": "proved",
   "theorems": [
    "C64_text",
    "C64_characters",
    "C64_accepted",
    "C64_aborts",
    "C64_unambiguous",
    "C64_saved"
   ],
   "note": "serde_json and std::str (libraries) are modelled; this ties the models to the standards"
  },
  {
   "property": "C65",
   "status": "proved",
   "theorems": [
    "C65_nothing_lost",
    "C65_descriptions_replaced",
    "C65_confined",
    "C65_stays_inside_refuted",
    "C65_write_aborts",
    "C65_unusable_names",
    "C65_abort_is_final",
    "C65_save_aborts",
    "C65_description_aborts",
    "C65_no_description_is_final"
   ],
   "note": "confinement holds for plain paths; for others it is refuted (C65_stays_inside_refuted)"
  },
  {
   "property": "C66",
   "status": "proved",
   "theorems": [
    "C66_accepts",
    "C66_errors",
    "C66_aborts",
    "C66_hangs",
    "C66_unambiguous",
    "C66_last_entry"
   ],
   "note": "call-stack depth is not modelled: very deep nesting overflows the stack of the real program"
  },
  {
   "property": "C67",
   "status": "proved",
   "theorems": [
    "C67_piece_result",
    "C67_metadata_result",
    "C67_third_write_piece",
    "C67_third_write_metadata",
    "C67_piece_obtained",
    "C67_metadata_obtained",
    "C67_piece_session_ends",
    "C67_metadata_session_ends"
   ],
   "note": "whether a real socket still delivers after a failed write is up to the arrival schedule"
  },
  {
   "property": "C68",
   "status": "proved",
   "theorems": [
    "C68_eventually_complete",
    "C68_comes_to_rest",
    "C68_reports_bounded",
    "C68_gives_up_refuted"
   ],
   "note": "the literal claim without a bound on failed downloads is refuted (C68_gives_up_refuted)"
  },
  {
   "property": "C69",
   "status": "proved",
   "theorems": [
    "C69_http",
    "C69_plain_peers_refuted",
    "C69_udp",
    "C69_one_verdict",
    "C69_packets",
    "C69_not_begun"
   ],
   "note": "what ureq makes of the network is an input; answers in the form of BEP 3 are not understood (C69_plain_peers_refuted)"
  },
  {
   "property": "C70",
   "status": "proved",
   "theorems": [
    "C70_piece",
    "C70_metadata",
    "C70_one_ending"
   ],
   "note": "for pieces of a torrent whose sizes fit (as in C37); with fuel for every attempt a finite schedule allows"
  },
  {
   "property": "C71",
   "status": "proved",
   "theorems": [
    "C71_overflow_exactly",
    "C71_otherwise_same",
    "C71_short_texts",
    "C71_nesting",
    "C71_enough_stack_refuted",
    "C71_harmless_message_refuted"
   ],
   "note": "a stack frame is one call of decode with the parse function it is in; the size of a frame in bytes and the recursive drop of the value are not modelled"
  },
  {
   "property": "C72",
   "status": "proved",
   "theorems": [
    "C72_attempt",
    "C72_same_socket",
    "C72_piece",
    "C72_metadata",
    "C72_far_peer",
    "C72_silence_piece",
    "C72_silence_metadata",
    "C72_limit_refuted"
   ],
   "note": ""
  },
  {
   "property": "C73",
   "status": "proved",
   "theorems": [
    "C73_piece",
    "C73_metadata",
    "C73_seed"
   ],
   "note": ""
  },
  {
   "property": "C74",
   "status": "proved",
   "theorems": [
    "C74_piece",
    "C74_metadata",
    "C74_said_piece",
    "C74_said_metadata"
   ],
   "note": ""
  },
  {
   "property": "C75",
   "status": "proved",
   "theorems": [
    "C75_attempt",
    "C75_vain",
    "C75_piece",
    "C75_metadata",
    "C75_attempt_limited_refuted",
    "C75_queue_limited_refuted"
   ],
   "note": ""
  },
  {
   "property": "C76",
   "status": "proved",
   "theorems": [
    "C76_as_linked",
    "C76_planted_refuted"
   ],
   "note": "the claim without the condition on file paths is refuted (C76_planted_refuted); that peers may lie is C50"
  },
  {
   "property": "C77",
   "status": "proved",
   "theorems": [
    "C77_start",
    "C77_log_apart",
    "C77_downloads_right",
    "C77_position",
    "C77_named_like_log_refuted"
   ],
   "note": "lines are any bytes at any moments (a superset of what the crates log); the claim for torrents with a file called test.log is refuted (C77_named_like_log_refuted)"
  },
  {
   "property": "C78",
   "status": "proved",
   "theorems": [
    "C78_execution",
    "C78_free_worker",
    "C78_free_request",
    "C78_own_threads",
    "C78_passed_on",
    "C78_passes",
    "C78_waits",
    "C78_lost_forever",
    "C78_all_lost",
    "C78_never_lets_go",
    "C78_one_answer",
    "C78_main_thread",
    "C78_downloads_wait",
    "C78_isolation_refuted",
    "C78_whole_client_refuted",
    "C78_free_threads_refuted"
   ],
   "note": "the number of worker threads is a parameter; the wish for isolation is refuted (C78_isolation_refuted, C78_whole_client_refuted), and so is the wish that free threads begin to download (C78_free_threads_refuted)"
  },
  {
   "property": "C79",
   "status": "proved",
   "theorems": [
    "C79_near_only",
    "C79_far_swarm",
    "C79_answer_size",
    "C79_tried",
    "C79_main_time",
    "C79_unresponsive",
    "C79_one_answer",
    "C79_reachable_refuted"
   ],
   "note": "latencies are inputs (fixed for each address); time other than that of connection attempts is not counted; the wish is refuted (C79_reachable_refuted)"
  },
  {
   "property": "C80",
   "status": "proved",
   "theorems": [
    "C80_disk_ignored",
    "C80_from_peers",
    "C80_resume_refuted"
   ],
   "note": "the first part is for torrents without files inside the directory of descriptions (otherwise see C76); the wish is refuted (C80_resume_refuted)"
  },
  {
   "property": "C81",
   "status": "proved",
   "theorems": [
    "C81_at_most_the_torrent",
    "C81_all_torrents",
    "C81_all_of_it"
   ],
   "note": "the data that the five workers are collecting are not counted (see C73)"
  },
  {
   "property": "C82",
   "status": "proved",
   "theorems": [
    "C82_schedules",
    "C82_piece",
    "C82_unaligned",
    "C82_metadata",
    "C82_any_segments_refuted"
   ],
   "note": "the greeting of the server comes in one segment, its other messages in any segments with the first five bytes together and the rest within 42 reads or peeks (both limits are needed: C82_any_segments_refuted); writes of the client succeed"
  },
  {
   "property": "C83",
   "status": "proved",
   "theorems": [
    "C83_order",
    "C83_no_failures",
    "C83_eventually_complete",
    "C83_all_served",
    "C83_unaligned"
   ],
   "note": "a seed is the server of C82; that the torrent never stops with something left to do is a hypothesis about scheduling, as in C68"
  },
  {
   "property": "C84",
   "status": "proved",
   "theorems": [
    "C84_asked",
    "C84_reported",
    "C84_description",
    "C84_begins",
    "C84_from_link"
   ],
   "note": "scheduling (attended, never_stuck), full mailboxes (never_full) and the behaviour of the peers that are asked (introduced, served) are hypotheses; combines C55, C56, C76, C68, C82 and C83"
  },
  {
   "property": "C85",
   "status": "proved",
   "theorems": [
    "C85_in_time",
    "C85_served",
    "C85_at_least"
   ],
   "note": "how long the parts take (prompt, no_sooner) is a hypothesis about machine, network and peers, and so is a clock that does not run backwards; without failures and lost workers is a hypothesis of C85_in_time and proved for seeds in C85_served"
  },
  {
   "property": "C86",
   "status": "proved",
   "theorems": [
    "C86_schedules",
    "C86_piece",
    "C86_metadata",
    "C86_rate",
    "C86_distant"
   ],
   "note": "the TCP connection, writing and computing take no time in this model; the opening ends with the message that makes the client ready (ne_last); messages come whole"
  },
  {
   "property": "C87",
   "status": "proved",
   "theorems": [
    "C87_all_taken",
    "C87_unnoticed",
    "C87_no_damage",
    "C87_never_again",
    "C87_gives_up",
    "C87_errors",
    "C87_restart",
    "C87_recovers_refuted"
   ],
   "note": "the operating system answers each call for a file with a verdict; one torrent; that the files are complete once room is back is refuted"
  },
  {
   "property": "C88",
   "status": "proved",
   "theorems": [
    "C88_limit",
    "C88_rate",
    "C88_complete",
    "C88_in_time"
   ],
   "note": "that every download goes as the session with a server at the distance is a hypothesis (from_afar); a lower bound on time, so connecting, writing and computing, which take no time in the model, only make it longer; pieces cut off by the end of the torrent are not counted; the bound from above takes that downloads end with such sessions (punctual) and that the client is prompt as hypotheses"
  },
  {
   "property": "C89",
   "status": "proved",
   "theorems": [
    "C89_all_taken",
    "C89_as_alone",
    "C89_search",
    "C89_common_disk",
    "C89_unnoticed"
   ],
   "note": "only writes of pieces are refused in this model; the saved descriptions and the log are taken; torrents that share files are the subject of C58_kept_apart_refuted"
  }
 ]
}