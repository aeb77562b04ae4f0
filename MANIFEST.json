{
 "claims": [
  {
   "property": "C01",
   "status": "proved",
   "theorems": [
    "base64_roundtrip",
    "base64_encode_is_rfc4648",
    "base64_roundtrip_empty_refuted"
   ],
   "note": "Holds for every non-empty input below 2^62 octets (above that the encoder returns NULL); the empty string is a finding: decode returns NULL."
  },
  {
   "property": "C02",
   "status": "proved",
   "theorems": [
    "base64_encode_in_buffer"
   ],
   "note": ""
  },
  {
   "property": "C03",
   "status": "partial",
   "theorems": [
    "base64url_roundtrip_refuted",
    "base64url_decode_rejects_unpadded",
    "base64url_roundtrip_partial",
    "base64url_encode_is_rfc4648"
   ],
   "note": "The claim is false in the code: the decoder rejects every encoding whose source length is not a multiple of three. Proved: exact failure set and round trip for the rest."
  },
  {
   "property": "C04",
   "status": "proved",
   "theorems": [
    "base64_decode_is_rfc4648",
    "base64url_decode_is_rfc4648",
    "base64_decode_in_buffer"
   ],
   "note": ""
  },
  {
   "property": "C05",
   "status": "proved",
   "theorems": [
    "hdlc_roundtrip",
    "hdlc_export_exact",
    "hdlc_frames_in_order",
    "hdlc_parse_iff_framed",
    "hdlc_shared_flag_refuted"
   ],
   "note": "Round trip, exact length, frame order and the exact accepted language are proved for all inputs. Finding: two frames sharing one flag octet (legal HDLC) lose the second frame, because the closing flag is consumed."
  },
  {
   "property": "C06",
   "status": "proved",
   "theorems": [
    "hdlc_chunking",
    "hdlc_chunking_all",
    "hdlc_no_overflow"
   ],
   "note": ""
  },
  {
   "property": "C07",
   "status": "proved",
   "theorems": [
    "crc32_is_polynomial_remainder",
    "crc32_detects_bursts",
    "crc32_detects_octet_changes",
    "crc32_verify_exact"
   ],
   "note": ""
  },
  {
   "property": "C08",
   "status": "proved",
   "theorems": [
    "hex_encode_exact",
    "hex_encode_injective",
    "hex_encode_large_overflow_refuted"
   ],
   "note": "The bound 2^31 is tight: the refuted theorem shows every larger source overflows the allocation."
  },
  {
   "property": "C09",
   "status": "proved",
   "theorems": [
    "utf8_validate_iff_well_formed",
    "utf8_iterate_delivers",
    "utf8_get_character_exact",
    "utf8_nul_hides_tail_refuted"
   ],
   "note": "Finding: octets after a NUL are not validated."
  },
  {
   "property": "C10",
   "status": "proved",
   "theorems": [
    "msg_create_send_receive",
    "msg_send_receive"
   ],
   "note": ""
  },
  {
   "property": "C11",
   "status": "proved",
   "theorems": [
    "msg_header_burst_rejected",
    "msg_header_checksum_altered_rejected",
    "msg_data_burst_rejected"
   ],
   "note": ""
  },
  {
   "property": "C12",
   "status": "partial",
   "theorems": [
    "msg_accepted_in_bounds_partial",
    "msg_accepted_in_bounds_refuted"
   ],
   "note": "The claim is false in the code: the topic length is not compared with the message size. Proved: what acceptance does guarantee, and the concrete accepted message."
  },
  {
   "property": "C13",
   "status": "proved",
   "theorems": [
    "msg_new_reads_back",
    "msg_new_too_large_refused",
    "msg_topic_set_exact",
    "msg_topic_equals_iff",
    "msg_set_type_class_exact"
   ],
   "note": ""
  },
  {
   "property": "C36",
   "status": "partial",
   "theorems": [
    "msg_receive_safe_partial",
    "msg_receive_aborts_refuted",
    "log_out_of_bounds_refuted",
    "stats_unpack_overflow_refuted",
    "msg_accepted_in_bounds_refuted"
   ],
   "note": "The claim is false in the code in three ways (stated size below the header size aborts; short log message; statistics message with an overlong member); proved safe for everything else."
  },
  {
   "property": "C37",
   "status": "partial",
   "theorems": [
    "log_send_receive",
    "log_send_receive_refuted",
    "log_out_of_bounds_refuted"
   ],
   "note": "Holds for non-empty texts below 65536 and prefixes below 65535 octets; the rest is always refused by the receiver."
  },
  {
   "property": "C38",
   "status": "proved",
   "theorems": [
    "stats_send_receive"
   ],
   "note": ""
  },
  {
   "property": "C17",
   "status": "proved",
   "theorems": [
    "increment_mod_next_in_class",
    "increment_mod_no_collision",
    "increment_basic_in_range",
    "increment_basic_restart_refuted"
   ],
   "note": "Finding: the plain incrementer does not always restart at min after the end of the range."
  },
  {
   "property": "C18",
   "status": "proved",
   "theorems": [
    "prefix_roundtrip",
    "prefix_injective",
    "prefix_check_exact",
    "increment_verify_exact",
    "bits_to_max_exact"
   ],
   "note": ""
  },
  {
   "property": "C39",
   "status": "proved",
   "theorems": [
    "map_replace_get",
    "map_add_prepend_get",
    "map_replace_confirmed",
    "map_parse_pair_exact"
   ],
   "note": ""
  },
  {
   "property": "C40",
   "status": "partial",
   "theorems": [
    "incrementer_ids_follow",
    "incrementer_outputs_distinct",
    "incrementer_no_assertion",
    "incrementer_restart_refuted"
   ],
   "note": "Proved for histories without restart, and with restarts when no acknowledgement is lost and min is positive; the case min = 0 is refuted. With a lost acknowledgement followed by a restart one id is skipped."
  },
  {
   "property": "C19",
   "status": "proved",
   "theorems": [
    "id_pool_correct",
    "id_not_reused_before_release"
   ],
   "note": ""
  },
  {
   "property": "C20",
   "status": "proved",
   "theorems": [
    "id_pool_correct",
    "id_available_after_release"
   ],
   "note": ""
  },
  {
   "property": "C21",
   "status": "partial",
   "theorems": [
    "topic_match_exact",
    "topic_linear_agrees_partial",
    "topic_linear_agrees_refuted",
    "topic_match_standard_partial",
    "topic_match_standard_refuted",
    "validated_match_never_aborts"
   ],
   "note": "The token matcher follows the level rules exactly, for all filters and topics. The linear matcher agrees unless '$' (or unreadable memory) follows the topic; two deviations from the OASIS rules are refuted."
  },
  {
   "property": "C22",
   "status": "partial",
   "theorems": [
    "filter_validate_exact",
    "filter_validate_nonempty_refuted",
    "name_validate_exact",
    "validated_match_never_aborts"
   ],
   "note": "Exact characterisation proved; the 'non-empty' clause is refuted for filters: the empty filter is accepted."
  },
  {
   "property": "C23",
   "status": "partial",
   "theorems": [
    "acl_publish_exact",
    "acl_subscribe_exact",
    "acl_subscribe_sound_partial",
    "acl_subscribe_sound_refuted"
   ],
   "note": "Publish decisions proved in full. Subscriptions: sound when each '+' lies opposite a wildcard; refuted otherwise."
  },
  {
   "property": "C24",
   "status": "proved",
   "theorems": [
    "fifo_history_exact",
    "fifo_exactly_once",
    "fifo_merge_concat",
    "fifo_rep_sound",
    "fifo_search_in_order"
   ],
   "note": "Pointer-level model refined to lists for all histories and callbacks, up to the 32-bit entry counter.  Search-and-replace uses inside a history must meet the side condition of C26."
  },
  {
   "property": "C25",
   "status": "proved",
   "theorems": [
    "fifo_stays_sorted",
    "fifo_ordered_place"
   ],
   "note": "Finding: entries of equal order are placed before existing ones, so they leave in reverse order of writing."
  },
  {
   "property": "C26",
   "status": "partial",
   "theorems": [
    "fifo_replace_exact_partial",
    "fifo_replace_dangling_refuted",
    "fifo_replace_loses_refuted"
   ],
   "note": "The claim is false in the code: removing an entry after replacing one (with none kept in between) uses a stale predecessor, which loses the replaced entry or leaves a dangling pointer.  Proved exact for all other answer sequences."
  },
  {
   "property": "C27",
   "status": "partial",
   "theorems": [
    "fixp_ldouble_roundtrip",
    "fixp_ldouble_roundtrip_refuted",
    "fixp_from_ldouble_truncates",
    "fixp_from_ldouble_large_refuted",
    "fixp_hex_roundtrip_partial",
    "fixp_hex_roundtrip_refuted",
    "fixp_hex_text_fits",
    "fixp_parse_hex_exact",
    "fixp_parse_whole_exact",
    "fixp_parse_close",
    "fixp_parse_decimal_exact_refuted",
    "fixp_parse_large_refuted",
    "fixp_parse_accepts_literals",
    "fixp_parse_never_aborts"
   ],
   "note": "Round trips are proved for all values where they hold (long double: all but INT64_MIN; hexadecimal text: values that are not negative) and refuted elsewhere.  Decimal texts are within one unit, and a decimal text of an exactly representable number may be one unit too small."
  },
  {
   "property": "C28",
   "status": "proved",
   "theorems": [
    "str_export_import",
    "str_import_iff"
   ],
   "note": ""
  },
  {
   "property": "C41",
   "status": "partial",
   "theorems": [
    "int_import_exact",
    "int_import_incomplete",
    "int_import_size_refuted"
   ],
   "note": "Exact for all arrays whose stored size is below 2^32; larger counts wrap and leave the buffer (refuted)."
  },
  {
   "property": "C42",
   "status": "partial",
   "theorems": [
    "decimal_import_iff",
    "decimal_import_range_refuted"
   ],
   "note": "If-and-only-if proved with clamping; the claim that the number is kept is false beyond 64 bits, where the nearest limit is stored without error."
  },
  {
   "property": "C43",
   "status": "proved",
   "theorems": [
    "blob_import_iff",
    "separator_import_iff",
    "stx_import_iff",
    "nsep_import_iff"
   ],
   "note": ""
  },
  {
   "property": "C44",
   "status": "partial",
   "theorems": [
    "import_decided_partial",
    "import_decided_fixp_refuted",
    "import_decided_msg_refuted"
   ],
   "note": "Proved for all types but msg and fixp, where it is false."
  },
  {
   "property": "C45",
   "status": "partial",
   "theorems": [
    "import_safe_partial",
    "import_blob_size_refuted",
    "import_msg_size_refuted",
    "import_fixp_range_refuted",
    "int_import_size_refuted"
   ],
   "note": "Proved for definitions whose sizes do not wrap 32 bits, all types but msg, and fixp without the memory clause; refuted for the rest."
  },
  {
   "property": "C46",
   "status": "partial",
   "theorems": [
    "msg_import_exact",
    "msg_import_many_refuted"
   ],
   "note": "Proved for one message; refuted for several of different size."
  },
  {
   "property": "C47",
   "status": "proved",
   "theorems": [
    "value_pack_unpack",
    "value_pack_messages",
    "value_pack_empty_refused"
   ],
   "note": ""
  },
  {
   "property": "C48",
   "status": "partial",
   "theorems": [
    "int_to_text_exact_partial",
    "int_to_text_empty_refuted",
    "int_to_text_large_refuted",
    "str_to_number_elements_refuted"
   ],
   "note": "Exact for non-empty values below 2^30 octets; refuted for empty and larger ones."
  },
  {
   "property": "C14",
   "status": "partial",
   "theorems": [
    "array_round_trip",
    "array_network_round_trip",
    "array_too_large_refused",
    "array_pack_overflow_refuted"
   ],
   "note": "Exact for every array that fits a message; refuted for a single value whose tag and data together reach 2^32 octets, which overflows the message instead of being refused."
  },
  {
   "property": "C15",
   "status": "partial",
   "theorems": [
    "array_iterate_in_bounds",
    "array_read_in_bounds",
    "array_read_returns_partial",
    "array_read_returns_refuted",
    "array_iterate_long_topic_refuted"
   ],
   "note": "Proved for every message content whose topic fits the message.  Refuted for messages with a larger topic length (which the receiver accepts), and reading an embedded message with a size below 18 aborts."
  },
  {
   "property": "C16",
   "status": "partial",
   "theorems": [
    "array_number_first_partial",
    "array_number_index_refuted"
   ],
   "note": "False in the code for every index but 0 (wrong stride)."
  },
  {
   "property": "C49",
   "status": "proved",
   "theorems": [
    "array_push_unsigned_get",
    "array_push_signed_get"
   ],
   "note": ""
  },
  {
   "property": "C50",
   "status": "partial",
   "theorems": [
    "array_tag_lookup",
    "array_message_tag_lookup",
    "array_message_has_tag_refuted"
   ],
   "note": "Exact for arrays and messages made from arrays; an unreadable message is reported to have every tag."
  },
  {
   "property": "C51",
   "status": "partial",
   "theorems": [
    "array_split_exact",
    "array_split_zero_refuted"
   ],
   "note": "Exact for element counts from 1; a received element count of 0 divides by zero."
  },
  {
   "property": "C52",
   "status": "proved",
   "theorems": [
    "array_edit_exact",
    "array_rotate_exact"
   ],
   "note": ""
  },
  {
   "property": "C53",
   "status": "partial",
   "theorems": [
    "array_export_exact",
    "array_export_selection",
    "array_export_fixp_refuted"
   ],
   "note": "Exact for all exportable values; a fixed point value aborts."
  },
  {
   "property": "C33",
   "status": "partial",
   "theorems": [
    "mmap_history",
    "mmap_wrap_refuted",
    "mmap_fresh_serves",
    "mmap_free_forgets_refusals",
    "mmap_freed_available_refuted"
   ],
   "note": "Proved for every history with sizes below 2^64 - 8 on one heap: containment, size, disjointness, intact contents, exact emptiness and detection of bad frees.  Missing: the collection of heaps above it.  Findings: sizes within 8 of 2^64 wrap; a fresh heap refuses 8 of every 4096 sizes it was made for; a heap can refuse everything for ever though all is freed."
  },
  {
   "property": "C29",
   "status": "partial",
   "theorems": [
    "read_reassembles",
    "read_chunking_independent",
    "read_takes_all",
    "read_drops_justified",
    "read_time_exact",
    "read_never_aborts",
    "read_aborts_only_on_zero",
    "read_flush_gives_all",
    "read_eof_complete",
    "read_messages",
    "read_zero_size_refuted",
    "read_pause_refuted",
    "read_truncated_eof_refuted",
    "read_limit_refuted",
    "read_until_closed_refuted"
   ],
   "note": "Proved for all histories since the session of the sender was last removed, with the reasons for removal listed exactly.  Findings: a pause of 30 seconds within a message loses octets and misframes the rest; with a size limit the result depends on the chunks; a message until close is cut short by an empty read; a header with size 0 aborts the process."
  },
  {
   "property": "C30",
   "status": "proved",
   "theorems": [
    "read_no_overflow"
   ],
   "note": ""
  },
  {
   "property": "C31",
   "status": "proved",
   "theorems": [
    "slot_each_once_in_order",
    "slot_gives_next",
    "slot_no_overwrite",
    "slot_read_serves",
    "slot_write_stores",
    "slot_never_aborts",
    "slot_statistics",
    "slot_without_count",
    "slot_count_exact",
    "slot_count_set_keeps"
   ],
   "note": "Each call is one critical section of the slot's lock."
  },
  {
   "property": "C32",
   "status": "partial",
   "theorems": [
    "slot_no_use_after_free_partial",
    "slot_references_exact",
    "slot_write_incref_refuted",
    "slot_write_collection_refuted"
   ],
   "note": "Proved for every schedule in which slot_write_incref is called with the holder locked (all callers in the code do) and collections have at most one holder.  Findings: without the lock, and with collections of two or more, a freed holder is accessed."
  },
  {
   "property": "C34",
   "status": "partial",
   "theorems": [
    "channel_is_queue",
    "channel_fifo",
    "channel_shows_oldest",
    "channel_full_only_when_full",
    "channel_count_exact",
    "channel_progress",
    "channel_in_bounds",
    "channel_empty_message_refuted",
    "channel_error_stores_refuted",
    "channel_free_blocks_refuted"
   ],
   "note": "Proved for every interleaving of one writer and one reader with messages of at least one octet. Refuted for empty messages: the reader is stuck until the ring wraps and then gets the newest message. Freeing the blocks keeps the entry count."
  },
  {
   "property": "C35",
   "status": "partial",
   "theorems": [
    "parse_in_bounds",
    "parse_goes_forward",
    "parse_skip_exact",
    "parse_comment_exact",
    "parse_word_exact",
    "parse_word_case_exact",
    "parse_letters_exact",
    "parse_until_exact",
    "parse_line_exact",
    "parse_name_complete",
    "parse_name_sound",
    "parse_split_exact",
    "parse_extract_until_exact",
    "parse_strip_exact",
    "parse_trim_exact",
    "parse_location_exact",
    "parse_comment_overread_refuted",
    "parse_end_overread_refuted",
    "parse_subscript_abort_refuted",
    "parse_non_control_utf8_refuted"
   ],
   "note": "Proved for every text followed by a zero octet and every sequence of operations. False without the zero octet (environment files: one octet read after the buffer) and for empty names with subscript syntax (the program aborts); both are theorems."
  },
  {
   "property": "C54",
   "status": "partial",
   "theorems": [
    "settings_history",
    "settings_store_read",
    "settings_pack_exact",
    "settings_empty_value_refuted",
    "settings_long_name_refuted",
    "settings_uint_refuted",
    "settings_uint_range_refuted",
    "settings_yesno_prefix_refuted",
    "settings_pack_long_refuted",
    "settings_packed_name_refuted"
   ],
   "note": "Proved for every history with names below 244 characters and values without zero octets which are not empty.  Findings: empty values abort the program when read, a refused long name leaves an unnamed setting, numbers stored as numbers cannot be read, large numbers saturate, only the first character of yes/no counts, and long values cannot be passed between processes."
  },
  {
   "property": "C55",
   "status": "proved",
   "theorems": [
    "settings_commas_exact"
   ],
   "note": ""
  },
  {
   "property": "C56",
   "status": "partial",
   "theorems": [
    "config_roundtrip",
    "config_safe",
    "config_missing_name_refuted",
    "config_truncated_refuted",
    "config_unended_refuted"
   ],
   "note": "Round trip and bounds proved for all layouts, contents and texts; array, route and method definitions are parsed by code not modelled, which is a parameter.  Findings: a missing name between brackets aborts the program, a file ending in an opening bracket is accepted, a last block without settings and line end is refused."
  },
  {
   "property": "C57",
   "status": "partial",
   "theorems": [
    "env_exact",
    "env_roundtrip",
    "env_comment_overread_refuted"
   ],
   "note": "Exact for every file without zero octets whose last line is not an unended comment; for those memory after the buffer is read (a theorem)."
  },
  {
   "property": "C58",
   "status": "partial",
   "theorems": [
    "cond_exact_partial",
    "cond_right_exact",
    "cond_chain_refuted",
    "cond_single_refuted",
    "cond_subtract_refuted",
    "cond_rpn_refuted",
    "cond_short_circuit_refuted",
    "cond_large_refuted"
   ],
   "note": "Exact where operators of the same level do not follow each other without parentheses and no subtraction follows a closing parenthesis; for the others the value computed is given too (grouping to the right).  Findings: 10 - 3 - 2 is 9, a lone literal is false, reverse polish notation differs, AND and OR evaluate both sides, numbers of 2^64 and more saturate."
  },
  {
   "property": "C59",
   "status": "partial",
   "theorems": [
    "cond_interpret_safe",
    "cond_literals",
    "cond_abort_refuted",
    "cond_undefined_refuted"
   ],
   "note": "No text reads outside, loops or aborts when parsed, and literals are well-formed.  Findings: operators without values are accepted and abort the program when evaluated, shifts by 64 and signed overflow are undefined."
  },
  {
   "property": "C60",
   "status": "proved",
   "theorems": [
    "discern_runs_as_written",
    "discern_accepts_written_only",
    "discern_method_keyword_refuted"
   ],
   "note": "Finding: the keyword M of the manual does not exist.  Topic filters with characters outside ASCII are refused and a definition without instructions is accepted at the end of the text, both part of the statements."
  },
  {
   "property": "C61",
   "status": "proved",
   "theorems": [
    "discern_parse_safe",
    "discern_execute_safe"
   ],
   "note": ""
  },
  {
   "property": "C62",
   "status": "partial",
   "theorems": [
    "route_names_checked",
    "route_receivers_partial",
    "route_topic_data_refuted",
    "route_tag_nul_refuted"
   ],
   "note": "Exact for messages whose topic is followed by an octet other than $ and whose tags have no NUL characters; both exceptions are shown to be real."
  },
  {
   "property": "C63",
   "status": "partial",
   "theorems": [
    "ws_receive_partial",
    "ws_send_standard",
    "ws_round_trip",
    "ws_interleaved_refuted",
    "ws_pong_data_refuted",
    "ws_stray_continuation_refuted"
   ],
   "note": "Exact for control frames between messages and fragments below 4 GB.  Findings: a ping between fragments makes the message vanish, pongs do not carry the data of the ping, a stray continuation is delivered as a message."
  },
  {
   "property": "C64",
   "status": "partial",
   "theorems": [
    "ws_frame_safe_partial",
    "ws_refuses",
    "ws_close_ends",
    "ws_length_abort_refuted",
    "ws_length_corrupt_refuted",
    "ws_reserved_refuted"
   ],
   "note": "All frames with a length below 2^63 are safe.  Findings: ten octets abort the program, fourteen make it change memory after the buffer, reserved bits and unmasked frames from clients are accepted."
  },
  {
   "property": "C65",
   "status": "partial",
   "theorems": [
    "ws_timeout_partial",
    "ws_ping_partial",
    "ws_timeout_refuted"
   ],
   "note": "Exact for limits below 4295 seconds; larger ones wrap (a theorem)."
  },
  {
   "property": "C66",
   "status": "proved",
   "theorems": [
    "udps_delivered_as_queued",
    "udps_run_safe"
   ],
   "note": "Established streams with messages below 4 GB; the set-up of streams is not modelled."
  },
  {
   "property": "C67",
   "status": "partial",
   "theorems": [
    "udps_acknowledged_partial",
    "udps_retained_partial",
    "udps_round",
    "udps_tail_loss_refuted",
    "udps_reordered_refuted",
    "udps_empty_refuted",
    "udps_full_refuted"
   ],
   "note": "Nothing is let go of too early, and what is acknowledged is delivered.  Findings: a lost last datagram is never sent again, reordering of the first datagrams destroys the stream, empty messages are accepted but not sent, a full buffer stops sending for good."
  },
  {
   "property": "C68",
   "status": "partial",
   "theorems": [
    "udps_datagram_round_trip",
    "udps_datagram_damaged",
    "udps_datagram_safe",
    "udps_hostile_partial",
    "udps_flood_refuted",
    "udps_freed_refuted"
   ],
   "note": "Safe below 4 GB of data.  Findings: 4 GB of frames without an end overflow the size and memory, resets make the program read freed memory."
  },
  {
   "property": "C69",
   "status": "partial",
   "theorems": [
    "asd_once_partial",
    "asd_done_partial",
    "asd_no_loss_partial",
    "asd_run_safe",
    "asd_id",
    "asd_two_clients_refuted",
    "asd_client_restart_refuted",
    "asd_late_reset_refuted",
    "asd_receiver_restart_refuted"
   ],
   "note": "Exactly once for one client without crashes, no loss for any number of clients, when the periodic event comes at least every thousand deliveries.  Findings: with several clients messages may be delivered twice; restarts of either end may lose messages which were acknowledged."
  },
  {
   "property": "C70",
   "status": "partial",
   "theorems": [
    "asd_room_partial",
    "asd_halted_refuted"
   ],
   "note": "Holds with one client.  Finding: with several clients the receiver stops receiving for good."
  },
  {
   "property": "C71",
   "status": "partial",
   "theorems": [
    "url_encode_standard_partial",
    "url_decode_standard",
    "url_round_trip",
    "url_decode_safe",
    "url_endpoint_and_query",
    "url_encode_size_refuted",
    "url_decode_malformed_refuted"
   ],
   "note": "Findings: an escape with one digit is accepted and swallows a character; a third of 4 GB aborts."
  },
  {
   "property": "C72",
   "status": "partial",
   "theorems": [
    "form_parse_partial",
    "form_trailing_partial",
    "form_uri_partial",
    "form_round_trip_partial",
    "form_parse_safe",
    "form_value_zero_refuted",
    "form_space_refuted",
    "form_equals_refuted"
   ],
   "note": "Findings: values starting with a zero octet are lost, a space ends the text and stays in the value, an equals sign in a value is refused."
  },
  {
   "property": "C73",
   "status": "partial",
   "theorems": [
    "quote_standard_partial",
    "quote_refused",
    "quote_round_trip_partial",
    "unquote_comment_partial",
    "quote_token_refuted",
    "quote_backslash_refuted",
    "quote_size_refuted"
   ],
   "note": "Findings: some characters are not quoted, backslashes double, 2 GB overflow memory."
  },
  {
   "property": "C74",
   "status": "partial",
   "theorems": [
    "uri_absolute_partial",
    "uri_relative_partial",
    "uri_host_port",
    "uri_safe_partial",
    "uri_prepend_partial",
    "uri_host_legal",
    "uri_flags_right",
    "uri_network_path_refuted",
    "uri_wss_refuted",
    "uri_behind_refuted",
    "uri_relative_refuted",
    "uri_query_refuted",
    "uri_prepend_refuted"
   ],
   "note": "Findings: wss is taken for ws without encryption; the octet behind the text is read; paths ending with a colon, paths with :// and queries directly behind the host are refused; an empty prefix reads before the allocation."
  },
  {
   "property": "C75",
   "status": "partial",
   "theorems": [
    "http_request_partial",
    "http_request_body_forbidden_partial",
    "http_response_partial"
   ],
   "note": "For header fields with plain values (no lists or parameters), headers up to 64 kB and bodies below 2^63 octets.  Missing: fields with lists and parameters, multipart bodies, the HTTP/2 upgrade and sending."
  },
  {
   "property": "C76",
   "status": "partial",
   "theorems": [
    "http_response_chunked_partial",
    "http_request_chunked_refuted",
    "http_chunk_endless_refuted",
    "http_chunk_extension_refuted"
   ],
   "note": "Responses are proved.  Findings: the body of every request with chunks is read beyond its end; a response of 107 octets makes the client loop for ever; chunk extensions are refused.  Missing: trailers."
  },
  {
   "property": "C77",
   "status": "partial",
   "theorems": [
    "http_response_until_close_refuted",
    "http_response_bodyless_refuted",
    "http_request_end_refuted",
    "http_length_wrap_refuted",
    "http_link_abort_refuted",
    "http_correct_field_refuted"
   ],
   "note": "Refuted: bodies read until close are lost; responses 1xx and 304 never end; unclear lengths are accepted; lengths near 2^64 wrap; a Link field aborts the program; empty values are refused."
  },
  {
   "property": "C78",
   "status": "partial",
   "theorems": [
    "mqtt_write_standard",
    "mqtt_read_standard",
    "mqtt_round_trip",
    "mqtt_read_prefix",
    "mqtt_read_blob_refuted",
    "mqtt_read_password_refuted",
    "mqtt_forward_empty_refuted"
   ],
   "note": "Proved for every sequence of packets in the wire format of the standard, except what the findings show: properties of binary data, empty or non-UTF-8 passwords, empty user names and No Local/Retain As Published are not read; empty properties and wills are read but cannot be sent.  Not modelled: AUTH, topic aliases."
  },
  {
   "property": "C79",
   "status": "partial",
   "theorems": [
    "mqtt_receive_any_partial",
    "mqtt_receive_vetted_partial",
    "mqtt_puback_code_refuted",
    "mqtt_receive_abort_refuted",
    "mqtt_read_pieces_refuted",
    "mqtt_read_props_end_refuted"
   ],
   "note": "For every input the packets follow the lengths in the octets and nothing aborts except a SUBSCRIBE of version 5; every packet handed on has type, flags, identifier, topics, filters and codes as the standard allows, but for one code of PUBACK and PUBREC.  Findings: that one does (a client can abort the broker), the outcome may depend on the splitting, and properties may overrun their length."
  },
  {
   "property": "C80",
   "status": "partial",
   "theorems": [
    "mqtt_broker_never_aborts_partial",
    "mqtt_unsuback_partial",
    "mqtt_retained_partial",
    "mqtt_subscribe_full_refuted"
   ],
   "note": "Proved while no more than 65536 filters have been asked for.  Finding: a session which is full grants further subscriptions without keeping them."
  },
  {
   "property": "C81",
   "status": "partial",
   "theorems": [
    "mqtt_forward_partial",
    "mqtt_subscribe_full_refuted"
   ],
   "note": "Proved while no more than 65536 filters have been asked for.  Matching is by the rules of TopicSpec.v (differences from the standard there).  The sending of the queues is not part of this model."
  },
  {
   "property": "C82",
   "status": "partial",
   "theorems": [
    "mqtt_retained_partial",
    "mqtt_retain_handling_refuted",
    "mqtt_resubscribe_retained_refuted",
    "mqtt_retained_size_refuted"
   ],
   "note": "Findings: retain handling is ignored, subscribing again sends nothing, the maximum packet size is ignored for retained messages."
  },
  {
   "property": "C83",
   "status": "partial",
   "theorems": [
    "mqtt_session_kept_partial",
    "mqtt_will_maintain_partial",
    "mqtt_will_disconnect_partial",
    "mqtt_session_never_expires_refuted",
    "mqtt_session_resumed_refuted",
    "mqtt_clean_start_refuted",
    "mqtt_will_delay_refuted",
    "mqtt_will_take_over_refuted"
   ],
   "note": "Findings: sessions which never expire are deleted after 20 seconds, resumed sessions may be deleted at once, a clean start keeps messages, long will delays wrap, wills are lost when a session is taken over."
  },
  {
   "property": "C84",
   "status": "partial",
   "theorems": [
    "mqtt_qos_never_aborts_partial",
    "mqtt_qos_suback_abort_refuted",
    "mqtt_qos_receiver_partial",
    "mqtt_qos_repeated_refuted",
    "mqtt_qos_reused_refuted"
   ],
   "note": "Proved for remotes which use an identifier again only after this side has tidied its queues.  Findings: SUBACK or UNSUBACK with the identifier of a message aborts the program; a repeated PUBLISH of QoS 1 closes the connection and leaves a message which is delivered again; an identifier used again at once closes the connection."
  },
  {
   "property": "C85",
   "status": "partial",
   "theorems": [
    "mqtt_qos_ids_distinct",
    "mqtt_qos_kept",
    "mqtt_qos_sent",
    "mqtt_qos_receive_maximum_refuted",
    "mqtt_qos_expired_refuted"
   ],
   "note": "Findings: with a Receive Maximum of 1 nothing of QoS 1 or QoS 2 is ever sent; expired messages stay for ever."
  },
  {
   "property": "C86",
   "status": "partial",
   "theorems": [
    "mqtt_qos_delivery_partial",
    "mqtt_qos_pair_never_aborts_partial"
   ],
   "note": "Proved for histories in which an identifier is given to a new message only when nothing is left of the one which had it before."
  },
  {
   "property": "C87",
   "status": "proved",
   "theorems": [
    "send_loop_conserves",
    "send_loop_progress"
   ],
   "note": ""
  },
  {
   "property": "C88",
   "status": "partial",
   "theorems": [
    "send_loop_due_partial",
    "send_loop_network_order_refuted",
    "send_loop_network_order_early_refuted",
    "send_loop_long_timeout_refuted",
    "send_loop_seconds_refuted"
   ],
   "note": "Proved for modules which leave the messages as they are and for timeouts shorter than the time since 1970.  Findings: messages sent by the module ip in network order do not expire, or expire at once; long timeouts are reached at once; long times to live wrap."
  },
  {
   "property": "C89",
   "status": "partial",
   "theorems": [
    "send_loop_first",
    "send_loop_order_partial"
   ],
   "note": "The order over whole histories is proved while nothing handed over comes back."
  },
  {
   "property": "C90",
   "status": "partial",
   "theorems": [
    "array_tree_import_exact_partial",
    "array_tree_octets",
    "array_tree_prefix_refuted",
    "array_tree_rewind_refuted",
    "array_tree_rewind_checked_refuted"
   ],
   "note": "Proved for definitions in `plain` (ArrayTreeSpec.v), which excludes the cases of the findings.  Findings: a name also finds values of which the tag is only its beginning, REWIND over numbers written as text goes back too little, REWIND past the beginning is not refused when the definition is read."
  },
  {
   "property": "C91",
   "status": "partial",
   "theorems": [
    "array_tree_import_safe_partial",
    "array_tree_count_refuted",
    "array_tree_abort_refuted"
   ],
   "note": "Proved for definitions in `plain`.  Findings: counts taken from the data make memory which is too small, or abort the program."
  },
  {
   "property": "C92",
   "status": "partial",
   "theorems": [
    "array_tree_import_decided_partial"
   ],
   "note": "Proved for definitions in `plain`."
  },
  {
   "property": "C93",
   "status": "proved",
   "theorems": [
    "array_def_safe"
   ],
   "note": ""
  },
  {
   "property": "C94",
   "status": "partial",
   "theorems": [
    "array_def_layout_partial",
    "array_def_short_refuted",
    "array_def_sign_refuted"
   ],
   "note": "Proved for values of 3 to 65 characters and conditions with operators of the same level grouped by parentheses.  Findings: values of two characters are refused, sizes with a sign are accepted and wrap around."
  },
  {
   "property": "C95",
   "status": "proved",
   "theorems": [
    "msgdb_history",
    "msgdb_relative_refuted",
    "msgdb_nul_refuted"
   ],
   "note": "For topics without the octet NUL and whose SHA-256 digests differ (a hypothesis on the topics used).  Findings: with a relative directory nothing which was put can be got; messages whose topic has NUL can be put but never got."
  },
  {
   "property": "C96",
   "status": "proved",
   "theorems": [
    "msgdb_crash",
    "msgdb_put_atomic_refuted"
   ],
   "note": "Proved as stated.  Finding: PUT is not atomic, a kill between truncation and writing loses the old message as well."
  },
  {
   "property": "C97",
   "status": "partial",
   "theorems": [
    "msgdb_tidy_partial",
    "msgdb_index_partial",
    "msgdb_index_once_refuted",
    "msgdb_index_ends_refuted"
   ],
   "note": "Proved for iterations which end within one time slice.  Findings: when the time is not enough for a directory it is started over, so messages are sent more than once, and the iteration may never end."
  },
  {
   "property": "C98",
   "status": "proved",
   "theorems": [
    "broker_order",
    "broker_shared_memory_refuted"
   ],
   "note": "For networks in which an instance with several readers duplicates.  Finding: with several readers and no duplicate, memory given free is used when a poll ends at the 500th message."
  },
  {
   "property": "C99",
   "status": "proved",
   "theorems": [
    "broker_events",
    "broker_complete",
    "broker_no_deadlock",
    "broker_progress",
    "broker_finish",
    "broker_shared_lost_refuted"
   ],
   "note": "For the same networks.  Finding: readers which share a sender can use up each other's notifications, and a message from another sender stays unread until something else is written."
  },
  {
   "property": "C100",
   "status": "partial",
   "theorems": [
    "broker_backstop_partial",
    "broker_backstop_duplicate_refuted"
   ],
   "note": "Proved for networks without duplicate.  Finding: clones do not have the source of the message, so that with duplicate own messages come back."
  },
  {
   "property": "C101",
   "status": "proved",
   "theorems": [
    "sha256_is_fips",
    "sha256_calculate_is_fips"
   ],
   "note": "For messages shorter than 2^61 octets; the specification derives the constants from roots of primes."
  },
  {
   "property": "C102",
   "status": "proved",
   "theorems": [
    "sha1_is_fips"
   ],
   "note": ""
  },
  {
   "property": "C103",
   "status": "proved",
   "theorems": [
    "websocket_server_accept",
    "websocket_client_takes",
    "websocket_accept_agree"
   ],
   "note": "Keys at the server shorter than 256 octets and without NUL, values in replies without NUL."
  },
  {
   "property": "C104",
   "status": "proved",
   "theorems": [
    "passwd_authenticate"
   ],
   "note": "The check of a hash is that of C105."
  },
  {
   "property": "C105",
   "status": "partial",
   "theorems": [
    "passwd_hash",
    "passwd_hash_form",
    "passwd_plain_short_partial",
    "passwd_plain_long_refuted",
    "passwd_plain_prefix_refuted",
    "passwd_plain_short_read_refuted",
    "passwd_bad_hash_refuted"
   ],
   "note": "Proved with the TLS library (the key derivation is a parameter); without it that passwords of up to 54 octets are accepted.  Findings: without it longer passwords abort the program, passwords which go on after the right one are accepted, and shorter ones make it read out of bounds; hashes with a short salt or key in the file abort or read out of bounds."
  },
  {
   "property": "C106",
   "status": "proved",
   "theorems": [
    "passwd_history",
    "passwd_names",
    "passwd_malformed",
    "passwd_newline_refuted",
    "passwd_many_permissions_refuted"
   ],
   "note": "With the TLS library.  Findings: a line break in a name and more than 32 permissions are not refused, and make the file unreadable."
  },
  {
   "property": "C107",
   "status": "proved",
   "theorems": [
    "passwd_crash",
    "passwd_crash_lost_refuted"
   ],
   "note": "Proved as stated.  Finding: a use after a stop between the two renames starts from no accounts and removes the file with .old after its name."
  },
  {
   "property": "C108",
   "status": "proved",
   "theorems": [
    "acl_file_exact",
    "acl_file_too_big",
    "acl_file_unique",
    "acl_file_publish",
    "acl_file_subscribe",
    "acl_file_trailing_blank_refuted",
    "acl_file_zero_refuted"
   ],
   "note": "Findings: blanks after a topic belong to its name, so that a rule can silently apply to nothing; a zero octet ends a name without an error."
  },
  {
   "property": "C109",
   "status": "proved",
   "theorems": [
    "modbus_refines",
    "modbus_sent"
   ],
   "note": "The clock is taken not to be 0 when a request is sent: 0 marks a request which is not sent yet."
  },
  {
   "property": "C110",
   "status": "proved",
   "theorems": [
    "modbus_refines",
    "modbus_answered_once",
    "modbus_ids",
    "modbus_answer_arrives",
    "modbus_short_error_refuted",
    "modbus_leak_refuted"
   ],
   "note": "Answers to writes are not compared with the address written, and the protocol number in the header is not checked; the specification says so.  Findings: an error answer without a code is accepted, with a code from memory which was not set; a request with an answer for another function is dropped without its pointer being given back."
  },
  {
   "property": "C111",
   "status": "proved",
   "theorems": [
    "chunk_octets",
    "chunk_order"
   ],
   "note": "Socket clients use normal priority only; chunk_octets holds for both priorities."
  },
  {
   "property": "C112",
   "status": "partial",
   "theorems": [
    "chunk_octets",
    "chunk_callback_partial",
    "chunk_callback_refuted",
    "chunk_urgent_refuted",
    "chunk_error_lost_refuted"
   ],
   "note": "No octet is lost or repeated (chunk_octets).  The order is proved for data which is not urgent when the transport takes no more at a time after it has taken a part.  Findings: without these, data is put in the middle of other data; and an error for urgent data is forgotten when other data waits."
  },
  {
   "property": "C113",
   "status": "partial",
   "theorems": [
    "conv_number_text",
    "conv_text_number",
    "conv_round_trip",
    "conv_hex_partial",
    "conv_characters",
    "conv_kept",
    "conv_vain",
    "conv_refused",
    "conv_hex_string_refuted",
    "conv_hex_size_refuted"
   ],
   "note": "All but conversion of strings to hexadecimal text and of data of 2 GB.  Findings: strings are not converted to hexadecimal text although documented for tolerant settings; blobs of 2 GB overflow the memory for the hexadecimal text."
  },
  {
   "property": "C114",
   "status": "partial",
   "theorems": [
    "recipe_partial",
    "recipe_last_refuted",
    "recipe_safe",
    "recipe_elements_refuted"
   ],
   "note": "Proved when the last conversion is possible for what the others have made.  Findings: otherwise all of the recipe is undone; and the number of elements in an array message is not checked against its data, so that conversions read outside memory or abort.  recipe_safe is for values with elements of equal size and within a bound on the size of the result."
  },
  {
   "property": "C115",
   "status": "partial",
   "theorems": [
    "avg_interval_partial",
    "avg_readable",
    "avg_passed",
    "avg_timespan_refuted",
    "avg_sum_refuted",
    "avg_times_refuted",
    "avg_negative_refuted",
    "avg_broken_refuted"
   ],
   "note": "Proved for the measurements since the last interval which are within the timespan, when their sum is below 2^64 and messages can be read.  Findings: measurements are in one average only, so that a timespan longer than the interval has no effect; sums wrap; arrays without times are dropped; negative numbers are taken for big ones; one broken array message ends the module or makes it read outside memory."
  },
  {
   "property": "C116",
   "status": "partial",
   "theorems": [
    "stree_table",
    "stree_answer",
    "stree_fresh",
    "stree_old",
    "stree_given",
    "stree_leaf",
    "stree_kind",
    "stree_refused_changes_refuted",
    "stree_short_refuted"
   ],
   "note": "Proved with a single time for all levels of a message. False, and refuted: a message refused for a slash at the end changes nothing; a path of one character is taken."
  },
  {
   "property": "C117",
   "status": "partial",
   "theorems": [
    "cmd_written",
    "cmd_taken_partial",
    "cmd_found",
    "cmd_commas_partial",
    "cmd_commas_refuted",
    "cmd_own_name_refuted",
    "cmd_letter_value_refuted",
    "cmd_unused_refuted"
   ],
   "note": "Proved: what is written as it should be is read as written, and what is taken is in a grammar with three more forms, which are findings. False, and refuted: a rule for words given by its name takes the next argument; a value for letters which take none is refused; empty values at the end are kept; unused arguments are told."
  },
  {
   "property": "C118",
   "status": "partial",
   "theorems": [
    "exp_values_partial",
    "exp_others",
    "exp_damaged_refuted",
    "exp_topic_refuted"
   ],
   "note": "Proved for messages which can be read and values for which the topic fits. False, and refuted: a damaged message, or a topic which becomes too long, does not end the module."
  }
 ]
}