{
 "claims": [
  {
   "property": "C01",
   "status": "proved",
   "theorems": [
    "C01_add_gtid_exact",
    "C01_top_of_u64_refuted",
    "C01_top_of_u64_release_refuted"
   ],
   "note": "All add histories over sets with non-empty intervals below 2^64-1; the bound is shown necessary by C01_top_of_u64_refuted."
  },
  {
   "property": "C02",
   "status": "proved",
   "theorems": [
    "C02_canonical_preserved",
    "C02_from_empty"
   ],
   "note": ""
  },
  {
   "property": "C03",
   "status": "proved",
   "theorems": [
    "C03_add_gtid_novelty"
   ],
   "note": "For server ids spelled as Uuid::new spells them (what the stream delivers)."
  },
  {
   "property": "C04",
   "status": "proved",
   "theorems": [
    "C04_text_depends_on_members_only"
   ],
   "note": "Any two histories with the same members, any hash map iteration orders."
  },
  {
   "property": "C05",
   "status": "proved",
   "theorems": [
    "C05_text_roundtrip"
   ],
   "note": ""
  },
  {
   "property": "C06",
   "status": "partial",
   "theorems": [
    "C06_parse_keeps_all_partial",
    "C06_repeated_uuid_refuted",
    "C06_reversed_interval_refuted",
    "C06_last_part_wins",
    "C06_any_text",
    "C06_any_text_has"
   ],
   "note": "False for repeated server ids (the last part overwrites) and reversed intervals (one swallows its neighbour), both refuted; proved otherwise. Exact for every text that is accepted: C06_any_text, with the transactions in the set (C06_any_text_has); which texts are accepted: C07_mysql_accepts_iff."
  },
  {
   "property": "C07",
   "status": "partial",
   "theorems": [
    "C07_mariadb_parse_returns_partial",
    "C07_mariadb_parse_refuted",
    "C07_mysql_parse_returns_partial",
    "C07_mysql_parse_refuted",
    "C07_mariadb_panics_iff",
    "C07_mariadb_accepts_iff",
    "C07_mariadb_stops",
    "C07_mysql_panics_iff",
    "C07_mysql_accepts_iff",
    "C07_mysql_stops"
   ],
   "note": "False: panics on short UUIDs, trailing commas, lists with fewer than three components, u64::MAX in debug builds. Proved instead, exactly and for all texts: when each parser panics (C07_mysql_panics_iff, C07_mariadb_panics_iff), when it accepts, and that it always stops."
  },
  {
   "property": "C08",
   "status": "proved",
   "theorems": [
    "C08_uuid_roundtrip"
   ],
   "note": ""
  },
  {
   "property": "C09",
   "status": "partial",
   "theorems": [
    "C09_one_entry_per_server_partial",
    "C09_two_spellings_refuted",
    "C09_one_entry_iff"
   ],
   "note": "False when the user spells a UUID in upper case (refuted). Proved when ids are spelled as the server spells them. Exact: no server has two entries iff no server id is spelled in two ways (C09_one_entry_iff)."
  },
  {
   "property": "C10",
   "status": "proved",
   "theorems": [
    "C10_last_write_wins",
    "C10_flag_is_new_domain"
   ],
   "note": ""
  },
  {
   "property": "C11",
   "status": "proved",
   "theorems": [
    "C11_roundtrip",
    "C11_repeated_domain_rejected",
    "C11_parse_gives_unique_domains",
    "C11_any_text"
   ],
   "note": ""
  },
  {
   "property": "C12",
   "status": "proved",
   "theorems": [
    "C12_checkpoint_exact",
    "C12_any_stream"
   ],
   "note": "Every prefix of every stream of transactions and service events; initial set as in C01. For event sequences of any shape, C12_any_stream says exactly which GTIDs are saved (specification over the events only)."
  },
  {
   "property": "C13",
   "status": "partial",
   "theorems": [
    "C13_checkpoint_exact_partial",
    "C13_statement_in_group_refuted",
    "C13_any_stream"
   ],
   "note": "Proved for row-based groups and standalone statements; false for groups with statements before their end (refuted: MariaDB sends no BEGIN, so the GTID is saved after the first statement). Exact for event sequences of any shape: C13_any_stream."
  },
  {
   "property": "C14",
   "status": "proved",
   "theorems": [
    "C14_delivery",
    "C14_final_set_delivered",
    "C14_not_sent_again",
    "C14_full_session_covers_log",
    "C14_progress",
    "C14_restarts"
   ],
   "note": "Any log with distinct GTIDs, any number of connections, any cuts: delivered transactions are the first of the missing ones, in order, none twice."
  },
  {
   "property": "C15",
   "status": "proved",
   "theorems": [
    "C15_position",
    "C15_file",
    "C15_nothing_announced"
   ],
   "note": ""
  },
  {
   "property": "C16",
   "status": "proved",
   "theorems": [
    "C16_resume_exact",
    "C16_sessions_exactly_once"
   ],
   "note": "Any number of files and connections, artificial rotate/heartbeat/format events included."
  },
  {
   "property": "C17",
   "status": "partial",
   "theorems": [
    "C17_table_map_kept_partial",
    "C17_safe_iff",
    "C17_second_row_event_refuted"
   ],
   "note": "False when several row events share one table map (refuted). Proved when each row event's table map is in the run of table maps directly before it, and only then: C17_safe_iff."
  },
  {
   "property": "C18",
   "status": "partial",
   "theorems": [
    "C18_rotate_position_partial",
    "C18_rotate_position_iff",
    "C18_large_position_refuted"
   ],
   "note": "False above 2^32 (refuted: the u64 position is truncated to u32). Exact: the stored position is the announced one modulo 2^32 (C18_rotate_position_iff)."
  },
  {
   "property": "C19",
   "status": "proved",
   "theorems": [
    "C19_untouched_outside_gtid_mode",
    "C19_never_panics_outside_gtid_mode"
   ],
   "note": ""
  },
  {
   "property": "C20",
   "status": "partial",
   "theorems": [
    "C20_debug_panics_iff",
    "C20_commit_total_partial",
    "C20_commit_total_release",
    "C20_debug_overflow_refuted"
   ],
   "note": "Debug builds panic for some sets that reach u64::MAX (refuted); which event panics is exact for the sets that parsing and adding leave (C20_debug_panics_iff). Proved for sets and GTIDs below 2^64-1 in both builds and for every parsed set in release builds."
  },
  {
   "property": "C21",
   "status": "partial",
   "theorems": [
    "C21_any_bytes",
    "C21_one_outcome",
    "C21_whole_file",
    "C21_events_in_order_partial",
    "C21_each_call"
   ],
   "note": "False for payloads the decoder finds too short (they end the iteration, C23_short_payload_ends_iteration_refuted) and for events on which it panics (C33). Exact instead for every file of whole events (C21_whole_file), for every sequence of bytes at all (C21_any_bytes: items and ending, with exactly one outcome, C21_one_outcome), and for every single call (C21_each_call)."
  },
  {
   "property": "C22",
   "status": "partial",
   "theorems": [
    "C22_any_cut",
    "C22_cut_file_partial"
   ],
   "note": "With the exceptions of C21. Exact for all files and cut points: what comes out is what the complete events give (C22_any_cut), for arbitrary bytes C21_any_bytes."
  },
  {
   "property": "C23",
   "status": "partial",
   "theorems": [
    "C23_end_means_end_partial",
    "C23_short_payload_ends_iteration_refuted"
   ],
   "note": "False when an event's payload is too short for its type: the decoder's end-of-slice error is taken for the end of the file (refuted, with two complete events left). Proved that this is the only exception."
  },
  {
   "property": "C24",
   "status": "proved",
   "theorems": [
    "C24_magic",
    "C24_otherwise_an_error"
   ],
   "note": ""
  },
  {
   "property": "C25",
   "status": "proved",
   "theorems": [
    "C25_checksum_never_decoded",
    "C25_last_four_bytes_irrelevant"
   ],
   "note": ""
  },
  {
   "property": "C26",
   "status": "partial",
   "theorems": [
    "C26_corruption_accepted_refuted"
   ],
   "note": "False: the checksum is cut off and never compared. Refuted for every checksum function; nothing weaker holds."
  },
  {
   "property": "C27",
   "status": "partial",
   "theorems": [
    "C27_format_description_partial",
    "C27_following_events_partial",
    "C27_debug_overflow_refuted",
    "C27_debug_exact"
   ],
   "note": "Proved for release builds. In debug builds refuted, exact: a panic if and only if the event is 256 to 274 bytes long (C27_debug_exact)."
  },
  {
   "property": "C28",
   "status": "proved",
   "theorems": [
    "C28_headers",
    "C28_all_slices"
   ],
   "note": ""
  },
  {
   "property": "C29",
   "status": "proved",
   "theorems": [
    "C29_service_events"
   ],
   "note": "User variables with text values; other value types are C68."
  },
  {
   "property": "C30",
   "status": "partial",
   "theorems": [
    "C30_mysql_gtid",
    "C30_previous_gtids",
    "C30_maria_gtid",
    "C30_maria_gtid_list_partial",
    "C30_list_flags_refuted",
    "C30_list_flags_exact"
   ],
   "note": "MySQL GTID, previous GTIDs and MariaDB GTID events proved. GTID lists: proved with zero flag bits, refuted otherwise (the count is not masked to 28 bits). Exact: with any flag bit set the event is rejected as truncated (C30_list_flags_exact)."
  },
  {
   "property": "C31",
   "status": "proved",
   "theorems": [
    "C31_unknown_events_skipped"
   ],
   "note": ""
  },
  {
   "property": "C32",
   "status": "proved",
   "theorems": [
    "C32_service_events_never_panic"
   ],
   "note": ""
  },
  {
   "property": "C33",
   "status": "partial",
   "theorems": [
    "C33_no_panic_partial",
    "C33_metadata_panics_iff",
    "C33_any_history_partial",
    "C33_short_checksum_refuted",
    "C33_few_columns_refuted",
    "C33_huge_length_refuted",
    "C33_previous_gtids_debug_refuted",
    "C33_metadata_refuted",
    "C33_cell_exact",
    "C33_panics_iff",
    "C33_any_history_panics_iff",
    "C33_returns_iff"
   ],
   "note": "False of the code (refuted, a witness for each kind of input). Exact instead, for both builds and after every history of events: decoding panics iff event_stops (C33_any_history_panics_iff; StopSpec describes these inputs by their bytes alone: payloads shorter than the checksum, the format, previous-GTIDs, table map and rows events concerned, down to the bytes of each cell, C33_cell_exact), does not end iff C47_hangs_iff, and returns Ok or Err on all others (C33_returns_iff)."
  },
  {
   "property": "C34",
   "status": "proved",
   "theorems": [
    "C34_length_encoded_integers",
    "C34_every_number_has_an_encoding",
    "C34_bad_markers",
    "C34_only_encodings"
   ],
   "note": "Also the converse: every number read was encoded."
  },
  {
   "property": "C35",
   "status": "proved",
   "theorems": [
    "C35_column_bitmaps",
    "C35_bitmaps_msb_first",
    "C35_all_bytes"
   ],
   "note": "Bitmap sizes up to isize::MAX bits."
  },
  {
   "property": "C36",
   "status": "proved",
   "theorems": [
    "C36_text_iff_utf8",
    "C36_other_bytes_rejected",
    "C36_sized_strings",
    "C36_sized_strings_sound"
   ],
   "note": ""
  },
  {
   "property": "C37",
   "status": "partial",
   "theorems": [
    "C37_null_terminated_partial",
    "C37_written_strings_read_back",
    "C37_unterminated_refuted",
    "C37_unterminated"
   ],
   "note": "Terminated strings proved; false for unterminated ones (refuted: the last character is dropped). What comes out for every unterminated string is exact (C37_unterminated)."
  },
  {
   "property": "C38",
   "status": "partial",
   "theorems": [
    "C38_plain_cells_partial",
    "C38_blob_cells_any_bytes",
    "C38_bad_utf8_is_an_error",
    "C38_binary_string_refuted"
   ],
   "note": "All listed types proved; false for CHAR/VARCHAR/BINARY/VARBINARY values that are not UTF-8 (they are rejected with an error, never mis-decoded: C38_bad_utf8_is_an_error, C38_binary_string_refuted)."
  },
  {
   "property": "C39",
   "status": "proved",
   "theorems": [
    "C39_decimals"
   ],
   "note": "All precisions up to 255 digits, all scales, both signs."
  },
  {
   "property": "C40",
   "status": "partial",
   "theorems": [
    "C40_temporal_partial",
    "C40_negative_time_rejected",
    "C40_negative_time2_rejected",
    "C40_year_zero_refuted",
    "C40_year_exact"
   ],
   "note": "All values proved, negative TIME/TIME2 proved rejected for all values; false for YEAR 0000, which decodes to 1900 (refuted), and for no other year (C40_year_exact)."
  },
  {
   "property": "C41",
   "status": "proved",
   "theorems": [
    "C41_bits"
   ],
   "note": ""
  },
  {
   "property": "C42",
   "status": "proved",
   "theorems": [
    "C42_real_string_type",
    "C42_unpacked"
   ],
   "note": ""
  },
  {
   "property": "C43",
   "status": "proved",
   "theorems": [
    "C43_table_map"
   ],
   "note": "All known column types; unknown types and metadata fields are errors."
  },
  {
   "property": "C44",
   "status": "partial",
   "theorems": [
    "C44_rows_partial",
    "C44_empty_image_refuted",
    "C44_no_column_exact"
   ],
   "note": "Proved for all rows with at least one column present; false otherwise (refuted). Exact otherwise: the event decodes to one without rows (C44_no_column_exact)."
  },
  {
   "property": "C45",
   "status": "proved",
   "theorems": [
    "C45_one_cell_per_column"
   ],
   "note": ""
  },
  {
   "property": "C46",
   "status": "proved",
   "theorems": [
    "C46_only_table_maps_matter",
    "C46_latest_table_map_used",
    "C46_no_table_map"
   ],
   "note": ""
  },
  {
   "property": "C47",
   "status": "partial",
   "theorems": [
    "C47_decoding_terminates_partial",
    "C47_no_column_hangs_refuted",
    "C47_hangs_iff",
    "C47_each_byte_once",
    "C47_each_byte_once_update",
    "C47_byte_read_twice_refuted"
   ],
   "note": "False of the code twice: rows events in which no column is present and bytes follow are decoded for ever, and with an extra data length below 2 (version 2) the cursor steps back. Proved: decoding never ends exactly for the former (C47_hangs_iff); for every decoded event of version 1 or with an extra data length of 2 and more, the payload is cut into the fields and rows, each read from its own bytes alone (C47_each_byte_once, C47_each_byte_once_update)."
  },
  {
   "property": "C48",
   "status": "proved",
   "theorems": [
    "C48_dump_packet",
    "C48_session"
   ],
   "note": "The packet for all values, and that a successful replicate() not in GTID mode ends with it."
  },
  {
   "property": "C49",
   "status": "proved",
   "theorems": [
    "C49_gtid_packet"
   ],
   "note": "For canonical sets of transaction numbers 1..2^64-2 (C02: what the client's own updates produce) whose encoding is below 4294967000 bytes, the largest the length field can announce; packets of 16 MiB and more panic in write_packet."
  },
  {
   "property": "C50",
   "status": "partial",
   "theorems": [
    "C50_reconnect_exact",
    "C50_first_connection_partial",
    "C50_reconnect_refuted"
   ],
   "note": "False: after events have been committed the GTID dump request carries the file name and position of the previous connection (refuted). Exact after every history: it names the last committed file and position, beside exactly the saved set (C50_reconnect_exact)."
  },
  {
   "property": "C51",
   "status": "proved",
   "theorems": [
    "C51_query",
    "C51_register",
    "C51_ssl_request",
    "C51_login"
   ],
   "note": ""
  },
  {
   "property": "C52",
   "status": "proved",
   "theorems": [
    "C52_native_accepted",
    "C52_native_switch_accepted"
   ],
   "note": "The hash function is a parameter (any function with a fixed non-zero output length); the example uses SHA-1 as in FIPS 180-4."
  },
  {
   "property": "C53",
   "status": "partial",
   "theorems": [
    "C53_fast_path_refuted",
    "C53_accepted_only_by_collision"
   ],
   "note": "False: refuted with SHA-256 (FIPS 180-4). More generally any accepted reply gives a hash collision (C53_accepted_only_by_collision): the digests are concatenated in the order of mysql_native_password, so the fast path never succeeds."
  },
  {
   "property": "C54",
   "status": "proved",
   "theorems": [
    "C54_full_authentication",
    "C54_after_switch"
   ],
   "note": "RSA is a parameter: any scheme that can encrypt messages one byte longer than the password and whose decryption inverts it. Directly after the handshake and after an authentication switch, without SSL (SSL is unimplemented in the code)."
  },
  {
   "property": "C55",
   "status": "proved",
   "theorems": [
    "C55_read_back",
    "C55_written"
   ],
   "note": "For every way of cutting the byte stream into portions. Packets of 16 MiB and more panic in write_packet."
  },
  {
   "property": "C56",
   "status": "partial",
   "theorems": [
    "C56_short_write_refuted",
    "C56_header_and_prefix_partial",
    "C56_exact"
   ],
   "note": "False: a short write of the body is not noticed (refuted). Proved: Ok means the header and as many bytes of the body as the last write took, so all of it when that write was complete. Exact for all answers of the operating system, interrupted calls included: C56_exact."
  },
  {
   "property": "C57",
   "status": "partial",
   "theorems": [
    "C57_stream_in_order_partial",
    "C57_eof_ends",
    "C57_eof_fields",
    "C57_closed_is_an_error",
    "C57_empty_packet_refuted",
    "C57_panics_iff"
   ],
   "note": "Proved for all sequences of event, error and other packets, failing events included, except events on which the decoder panics (C33) and empty packets, on which the iterator panics (refuted); C57_panics_iff: on these two and on nothing else."
  },
  {
   "property": "C58",
   "status": "partial",
   "theorems": [
    "C58_timeout_inside_packet_refuted",
    "C58_timeout_between_packets_partial",
    "C58_timeout_exact"
   ],
   "note": "False for time-outs inside a packet (refuted: the bytes read so far are lost and the reader never finds a packet boundary again). Proved for time-outs between packets. Exact: after a time-out behind k bytes of a packet reading goes on at the next byte as if a packet began there (C58_timeout_exact). Both for every error of read(2), not only time-outs."
  },
  {
   "property": "C59",
   "status": "partial",
   "theorems": [
    "C59_decoded",
    "C59_check_fails",
    "C59_never_accepted",
    "C59_every_command_refuted",
    "C59_every_command_fails"
   ],
   "note": "Packet level for all packets; in replicate() every response position except column definitions, where an ERR packet is skipped (C59_every_command_refuted, C61_column_error_refuted)."
  },
  {
   "property": "C60",
   "status": "proved",
   "theorems": [
    "C60_handshake",
    "C60_capability_bits",
    "C60_accepted_iff"
   ],
   "note": "For text parts that are NUL-free UTF-8 (as servers send) and reserved bytes below 128. Exact: a packet is accepted iff it has the form greets (spec/TalkSpec), with exactly these values (C60_accepted_iff)."
  },
  {
   "property": "C61",
   "status": "partial",
   "theorems": [
    "C61_plan",
    "C61_error_stops",
    "C61_returns",
    "C61_completes",
    "C61_column_error_refuted"
   ],
   "note": "False in one place: an error packet in place of a column definition is skipped and the dump is requested (refuted). Proved for all servers, options and byte streams otherwise: order, contents, sequence numbers, stop at the first error, no divergence; with a server that accepts everything it succeeds. Under C49's conditions on the set. Stated for an operating system that takes each packet as a whole; C93 extends it to any other."
  },
  {
   "property": "C62",
   "status": "partial",
   "theorems": [
    "C62_taken_from_server",
    "C62_reported_position",
    "C62_not_asked_again",
    "C62_no_status_statement",
    "C62_failed_attempt_partial",
    "C62_half_coordinates_refuted",
    "C62_left",
    "C62_unchanged_iff"
   ],
   "note": "Taken from the server, and never asked for again, is proved. False that a failed attempt changes nothing: a position that does not fit 32 bits leaves the file name with position 0, from which the next attempt starts (refuted). Exact for every outcome: the client left is left_client (spec/TalkSpec) of the packets received (C62_left); the coordinates are unchanged iff no complete status of one row was received or it says the same (C62_unchanged_iff)."
  },
  {
   "property": "C63",
   "status": "proved",
   "theorems": [
    "C63_quoting"
   ],
   "note": ""
  },
  {
   "property": "C64",
   "status": "proved",
   "theorems": [
    "C64_heartbeat",
    "C64_timeout"
   ],
   "note": "Where the read time-out can be computed: C64_timeout says exactly when the addition overflows (seconds + 10 >= 2^64)."
  },
  {
   "property": "C65",
   "status": "partial",
   "theorems": [
    "C65_rows_partial",
    "C65_null_cell_refuted",
    "C65_null_exact",
    "C65_rows_iff",
    "C65_rows_sent"
   ],
   "note": "Proved for result sets without NULL cells; false with NULL cells (refuted). Exact: rows are returned iff the packets received have the form rows_are; a panic iff one is empty or a cell is 2^63 bytes long (C65_rows_iff); they are read to the last packet and no further (C65_rows_sent); with a NULL cell the error is exact (C65_null_exact)."
  },
  {
   "property": "C66",
   "status": "partial",
   "theorems": [
    "C66_whole_iff",
    "C66_session_any",
    "C66_bare_rows_refuted",
    "C66_events_partial",
    "C66_any_stream",
    "C66_session_partial",
    "C66_mariadb_partial"
   ],
   "note": "Proved from the bytes on the connection, broken after any number of bytes, to the saved set, including replicate(); all event types, any stream (C66_any_stream, C66_session_any): rows of tables described before the stream began give an error at their place, rows without any column come without their rows (so the statement is false, C66_bare_rows_refuted); C66_whole_iff says when everything is handed out as sent. Missing: events of 16 MB and more (false, C70). MariaDB with C13's restriction."
  },
  {
   "property": "C67",
   "status": "partial",
   "theorems": [
    "C67_xa_complete_partial",
    "C67_xa_start_refuted",
    "C67_saved_from_start_on"
   ],
   "note": "False (refuted: the GTID is saved right after XA START). Exact for every prefix: the GTID is in the saved set from XA START on (C67_saved_from_start_on)."
  },
  {
   "property": "C68",
   "status": "partial",
   "theorems": [
    "C68_user_variables_partial",
    "C68_every_value",
    "C68_integer_variable_refuted"
   ],
   "note": "False for values that are not UTF-8 (refuted for an integer variable). Exact: decoding returns the value as text iff its bytes are UTF-8 and fails otherwise (C68_every_value)."
  },
  {
   "property": "C69",
   "status": "partial",
   "theorems": [
    "C69_empty_password_refuted",
    "C69_never_accepted"
   ],
   "note": "False for every scramble and every hash function with non-empty output: the reply is never empty."
  },
  {
   "property": "C70",
   "status": "partial",
   "theorems": [
    "C70_long_event_refuted",
    "C70_first_packet_alone"
   ],
   "note": "False: packets are never joined; refuted with a statement of 2^24 characters, of which a shorter one is yielded, then an error. For every such event: its first packet alone is decoded (C70_first_packet_alone)."
  },
  {
   "property": "C71",
   "status": "partial",
   "theorems": [
    "C71_fast_authentication_refuted",
    "C71_error_unreported_refuted",
    "C71_plain_login_partial",
    "C71_fast_login_realigns",
    "C71_fast_login_late_error",
    "C71_fast_login_lost_error"
   ],
   "note": "Proved for direct logins and for logins after full authentication. False after fast authentication (refuted: its OK packet is left unread). Exact after fast authentication: every answer is read one command late until a result set absorbs the extra packet, so with an accepting server replicate() completes (C71_fast_login_realigns), an error to the heartbeat statement is reported under the next statement's message (C71_fast_login_late_error) and an error to the master status is never reported (C71_fast_login_lost_error)."
  },
  {
   "property": "C72",
   "status": "partial",
   "theorems": [
    "C72_empty_packet",
    "C72_ssl_exact",
    "C72_last_number_exact",
    "C72_no_row_exact",
    "C72_one_cell_exact",
    "C72_panics_refuted",
    "C72_more_panics_refuted",
    "C72_causes_partial",
    "C72_panics_iff",
    "C72_panics_sent"
   ],
   "note": "False (refuted, twelve witnesses). Exact instead: replicate() panics iff the packets received have one of the twelve forms talk_stops (spec/TalkSpec), for every server, build and caller whose names and GTID sets fit into packets (C72_panics_iff); and it does panic when such packets are there to be read (C72_panics_sent). Assumes RSA encryption that returns a bounded result or an error."
  },
  {
   "property": "C73",
   "status": "partial",
   "theorems": [
    "C73_heartbeat_disabled_refuted",
    "C73_from_one_millisecond_partial",
    "C73_period_iff"
   ],
   "note": "False below one millisecond (refuted), proved from one millisecond on. Exact: the interval rounded down to milliseconds (C73_period_iff)."
  },
  {
   "property": "C74",
   "status": "proved",
   "theorems": [
    "C74_delivery",
    "C74_not_sent_again"
   ],
   "note": "Assumes C56's operating system (whole writes), at least the checksum setting reported by the server, and requests below 4 GB."
  },
  {
   "property": "C75",
   "status": "proved",
   "theorems": [
    "C75_flavour",
    "C75_from_greeting"
   ],
   "note": ""
  },
  {
   "property": "C76",
   "status": "proved",
   "theorems": [
    "C76_commit_again",
    "C76_redelivery"
   ],
   "note": "For sets as add_gtid and parsing of server text produce them (canonical) and transaction numbers below 2^64-1; redelivery for MySQL streams, with at most one spelling per server id."
  },
  {
   "property": "C77",
   "status": "proved",
   "theorems": [
    "C77_any_events_mysql",
    "C77_any_events_mariadb",
    "C77_nothing_forgotten"
   ],
   "note": "For MySQL: ids with 16 bytes and transaction numbers below 2^64-1 (C20)."
  },
  {
   "property": "C78",
   "status": "partial",
   "theorems": [
    "C78_any_file",
    "C78_whole_iff",
    "C78_bare_rows_refuted",
    "C78_file_partial",
    "C78_whole_file_partial",
    "C78_same_as_network_partial"
   ],
   "note": "Exact for every file cut anywhere (C78_any_file): rows of tables described in an earlier file give an error at their place, rows without any column come without their rows, so the statement is false as it stands (C78_bare_rows_refuted); C78_whole_iff says exactly when a file reads back as written. The theorems named _partial assume tables described in the file and rows with a column; the comparison with the network also events below 16 MB (C70) and a format description that names the algorithm."
  },
  {
   "property": "C79",
   "status": "partial",
   "theorems": [
    "C79_decoded",
    "C79_rows",
    "C79_cells_refuted",
    "C79_cells_square"
   ],
   "note": "Proved for rows and everything with a length (strings, blobs, bits, names) for all bytes. False for the number of cells: NULL and absent cells are handed over without taking a byte each (refuted: 74 bytes, 8000 cells). Cells are bounded by twice the square of the bytes (C79_cells_square), for all bytes and states."
  },
  {
   "property": "C80",
   "status": "proved",
   "theorems": [
    "C80_single",
    "C80_single_injective",
    "C80_sets"
   ],
   "note": "Sets as parsing and add_gtid leave them (set_writable: distinct keys, canonical, non-empty interval lists)."
  },
  {
   "property": "C81",
   "status": "proved",
   "theorems": [
    "C81_from_start",
    "C81_from_position",
    "C81_from_mysql_gtid",
    "C81_from_mariadb_gtid"
   ],
   "note": "For requests that fit (request_fits). from_end is C62; a GTID position of the other flavour is not covered here."
  },
  {
   "property": "C82",
   "status": "partial",
   "theorems": [
    "C82_delivery",
    "C82_passed",
    "C82_delivery_partial",
    "C82_passed_not_sent",
    "C82_not_sent_again",
    "C82_sent_again_iff",
    "C82_statement_in_group_refuted"
   ],
   "note": "C82_delivery, C82_passed, C82_not_sent_again, C82_sent_again_iff hold for every group a MariaDB server writes; that a group of which only a part was taken is sent again is false when that part holds a statement that no BEGIN precedes (C82_statement_in_group_refuted); C82_delivery_partial for streams without such statements. The server's log has increasing sequence numbers in each domain (gtid_strict_mode)."
  },
  {
   "property": "C83",
   "status": "proved",
   "theorems": [
    "C83_required",
    "C83_offered",
    "C83_refused",
    "C83_if_available"
   ],
   "note": "BinlogClient::new panics for every mode but Disabled, so the modes are reached by setting the public options afterwards; upgrade_to_ssl is unimplemented!(), so a server that offers SSL means a panic after the SSL request."
  },
  {
   "property": "C84",
   "status": "partial",
   "theorems": [
    "C84_stuck",
    "C84_second_row_event_refuted",
    "C84_exactly_once_partial"
   ],
   "note": "Any stream as in C66, also with row events whose table map lies before the saved position: these give an error and are not taken, and a client standing before one never gets past it (C84_stuck, C84_second_row_event_refuted). Missing: events of 16 MB and more (false, C70). Table maps may be delivered again."
  },
  {
   "property": "C85",
   "status": "proved",
   "theorems": [
    "C85_decoding",
    "C85_gtid_text",
    "C85_gtid_add",
    "C85_commit",
    "C85_file",
    "C85_network",
    "C85_replicate",
    "C85_release_panics"
   ],
   "note": "All functions that do checked arithmetic; theorems for the decoder, GTID sets, commit, both iterators and replicate()."
  },
  {
   "property": "C86",
   "status": "proved",
   "theorems": [
    "C86_stream",
    "C86_session"
   ],
   "note": "Bytes and time-outs in the same order; replicate() and the event iterator for any number of calls."
  },
  {
   "property": "C87",
   "status": "proved",
   "theorems": [
    "C87_same_events"
   ],
   "note": "Each event in one packet (below 16 MiB, see C70); results compared call by call."
  },
  {
   "property": "C88",
   "status": "proved",
   "theorems": [
    "C88_hashed_or_encrypted",
    "C88_hashed"
   ],
   "note": "For all servers and both builds: runs with two passwords with equal digests and equal ciphertexts are identical; with equal digests alone they are identical unless the client has asked for the server's key. Hash functions and RSA are parameters (external crates). The key is the one the peer sent and is not checked (C54)."
  },
  {
   "property": "C89",
   "status": "proved",
   "theorems": [
    "C89_only_own_table",
    "C89_what_is_left",
    "C89_in_between"
   ],
   "note": "For all bytes and states, rows events included."
  },
  {
   "property": "C90",
   "status": "partial",
   "theorems": [
    "C90_trailing_ignored",
    "C90_unknown_metadata_exact",
    "C90_unknown_metadata_refuted"
   ],
   "note": "Proved for integer and user variable, XID, MySQL GTID, previous GTIDs, MariaDB GTID and GTID list events, for all payloads that decode. False for table maps (refuted). Exact: a metadata field of an unknown type behind any table map that decodes is an error naming the type (C90_unknown_metadata_exact). Extra data of version 2 rows events is covered by C44. The remaining events are texts that reach to the end of the event."
  },
  {
   "property": "C91",
   "status": "partial",
   "theorems": [
    "C91_type_decides",
    "C91_changes_exact",
    "C91_passed_over",
    "C91_partial_update_refuted",
    "C91_compressed_transaction_refuted"
   ],
   "note": "False (refuted: partial updates and compressed transactions of MySQL 8.0). Exact: of all event types that carry row changes, those of six codes come out with rows whenever they decode, the others are handed out as unknown whatever they contain, and committing them moves the position past them (C91_changes_exact, C91_passed_over)."
  },
  {
   "property": "C92",
   "status": "proved",
   "theorems": [
    "C92_succeeds_iff",
    "C92_succeeds_sent",
    "C92_fails_iff",
    "C92_no_longer"
   ],
   "note": "For callers whose names and GTID sets fit into packets, and RSA encryption that returns a bounded result or an error. Success iff talk_ok of the packets received (C92_succeeds_iff); when such packets are there it succeeds and leaves what follows unread (C92_succeeds_sent); otherwise an error or the panics of C72 (C92_fails_iff). Assumes whole-packet writes (C56)."
  },
  {
   "property": "C93",
   "status": "partial",
   "theorems": [
    "C93_until_refused_partial",
    "C93_success_is_whole",
    "C93_takes_all",
    "C93_left",
    "C93_short_write_refuted"
   ],
   "note": "False in one place: bytes of a packet's body that the operating system did not take are never sent and replicate() goes on (refuted). Proved otherwise, with exactly what was handed over: every header, and of every body what its write took (C93_until_refused_partial); success is success as in C61 and C92 (C93_success_is_whole); the client left is that of C62_left (C93_left). Interrupted calls are repeated for the header and end it for the body (C93_example_signals)."
  },
  {
   "property": "C94",
   "status": "partial",
   "theorems": [
    "C94_finished_file",
    "C94_between_events_partial",
    "C94_inside_event",
    "C94_grown_file_refuted"
   ],
   "note": "False when the end or the error falls inside an event: the part read is lost and the reader never finds an event boundary again (refuted: an event written in two pieces and the next one are never handed out). Exact in that case (C94_inside_event); proved for ends and errors between events, in any number and order (C94_between_events_partial), and that short and interrupted reads make no difference (C94_finished_file)."
  },
  {
   "property": "C95",
   "status": "partial",
   "theorems": [
    "C95_saved",
    "C95_sent_iff",
    "C95_delivery_partial",
    "C95_transactions",
    "C95_xa",
    "C95_compressed",
    "C95_once_refuted"
   ],
   "note": "False: an XA transaction is saved with its XA START and never sent again when the connection breaks after it, a compressed transaction is never saved and sent on every connection (C95_once_refuted). Exact for all groups in which every BEGIN is followed by an end: C95_saved, C95_sent_iff; exactly once for groups that settle with their last event (C95_delivery_partial), which are those of C74 (C95_transactions) but not C95_xa and C95_compressed."
  },
  {
   "property": "C96",
   "status": "proved",
   "theorems": [
    "C96_address",
    "C96_only_there",
    "C96_unreachable",
    "C96_connected",
    "C96_no_timeout",
    "C96_attempts",
    "C96_new",
    "C96_defaults"
   ],
   "note": "Name resolution and TCP itself are the operating system's: dial is any function from addresses to answers."
  },
  {
   "property": "C97",
   "status": "partial",
   "theorems": [
    "C97_stream_exact",
    "C97_setup_exact",
    "C97_lost_or_repeated",
    "C97_noticed_refuted"
   ],
   "note": "False: numbers are never compared; a transaction whose rows got lost is saved without an error (C97_noticed_refuted). Exact instead: results of any number of calls and of replicate() do not depend on the numbers (C97_stream_exact, C97_setup_exact; 255 panics with overflow checks, C72), and what is lost or repeated changes nothing else (C97_lost_or_repeated)."
  },
  {
   "property": "C98",
   "status": "partial",
   "theorems": [
    "C98_entries",
    "C98_number",
    "C98_limit",
    "C98_stream",
    "C98_bounded_refuted"
   ],
   "note": "False: nothing is ever removed; one table reopened n times leaves n entries, for every n below 2^48 (C98_bounded_refuted). Exact instead: the entries are the distinct ids of all table maps decoded so far (C98_entries, C98_number, C98_stream), never more than 2^48 (C98_limit)."
  },
  {
   "property": "C99",
   "status": "partial",
   "theorems": [
    "C99_statement_exact",
    "C99_annotation_exact",
    "C99_never_saved",
    "C99_every_statement_refuted"
   ],
   "note": "False: a latin1 statement with an accent is an error in place of the event; by GTID its transaction is never saved, by position it is passed over (C99_every_statement_refuted). Exact instead: an event is handed out exactly when statement and database name are UTF-8, otherwise one of two errors with the decoder unchanged (C99_statement_exact, C99_annotation_exact), and a GTID followed by the next one without anything that completes it stays out of the saved set whatever follows (C99_never_saved)."
  },
  {
   "property": "C100",
   "status": "proved",
   "theorems": [
    "C100_all_that_is_said",
    "C100_bounded"
   ],
   "note": "All packets written in any run of replicate(): C100_all_that_is_said (login dialogue by `says`, commands by the plan of C61); at most 14 packets (C100_bounded). The stream afterwards writes nothing (BinlogEvents has no write)."
  },
  {
   "property": "C101",
   "status": "proved",
   "theorems": [
    "C101_copy",
    "C101_whole",
    "C101_reconnects",
    "C101_reconnects_mariadb",
    "C101_reconnects_position",
    "C101_file",
    "C101_files"
   ],
   "note": "One connection cut at any byte: C101_copy (C101_whole for a log read to its end); any number of GTID connections: C101_reconnects (MySQL, on top of C74), C101_reconnects_mariadb (on top of C82); by file and position: C101_reconnects_position (on top of C16 and C84: log events that are taken, whose row images have a column); a binlog file cut anywhere: C101_file; any number of files, the last one cut anywhere: C101_files. Premises (in Spec/CopySpec): inserted rows carry all columns, before images identify the row up to equal rows; events below 16 MB as in C66."
  },
  {
   "property": "C102",
   "status": "proved",
   "theorems": [
    "C102_column_type",
    "C102_column_type_known",
    "C102_unsupported_cell",
    "C102_negative_time",
    "C102_checksum",
    "C102_checksum_code",
    "C102_foreign",
    "C102_interval",
    "C102_plugin",
    "C102_no_position",
    "C102_no_set",
    "C102_no_list",
    "C102_magic",
    "C102_white_space"
   ],
   "note": "One theorem per error (C102_*), texts written out as in the sources; the errors of C24, C34, C46, C57, C63, C83, C90 are stated there."
  },
  {
   "property": "C103",
   "status": "partial",
   "theorems": [
    "C103_none",
    "C103_ends_iff",
    "C103_closed_for_ever",
    "C103_ends_refuted",
    "C103_end_of_log",
    "C103_final_refuted",
    "C103_cost",
    "C103_stops"
   ],
   "note": "The full statement is false (C103_ends_refuted, C103_closed_for_ever, C103_final_refuted). Proved instead: exactly when None comes (C103_none, C103_ends_iff), that a log followed by an EOF packet is handed out and then ends (C103_end_of_log), and that a loop stopping at the first error ends (C103_cost, C103_stops)."
  },
  {
   "property": "C104",
   "status": "proved",
   "theorems": [
    "C104_little",
    "C104_big",
    "C104_written",
    "C104_signed",
    "C104_utf8",
    "C104_utf8_unique",
    "C104_order",
    "C104_sorted",
    "C104_hex",
    "C104_hex_printed"
   ],
   "note": "The functions of Base that stand for byteorder, String::from_utf8, sort and the hex crate against Spec/StandardSpec, which does not use them. That those crates behave so is part of the trusted base."
  },
  {
   "property": "C105",
   "status": "proved",
   "theorems": [
    "C105_set",
    "C105_once",
    "C105_caught_up",
    "C105_replicas",
    "C105_mariadb_position",
    "C105_mariadb_replicas"
   ],
   "note": "On top of C74 and C14, with the premises of C74 (whole writes, packets below 16 MB, requests below 4 GB) at each server. Logs of different servers need not agree in C105_set, C105_once and C105_caught_up; C105_replicas and C105_mariadb_replicas are for first parts of one log. The MariaDB theorems are on top of C82 and its notion of a group that the position has passed."
  },
  {
   "property": "C106",
   "status": "proved",
   "theorems": [
    "C106_names_step",
    "C106_no_clear_password"
   ],
   "note": "For runs that end with an error from the server. That every error packet ends the run this way is C59, C61 and, with its exceptions, C71."
  },
  {
   "property": "C107",
   "status": "proved",
   "theorems": [
    "C107_restart",
    "C107_set",
    "C107_once",
    "C107_replicas",
    "C107_short_id_refuted",
    "C107_caught_up",
    "C107_everything",
    "C107_mariadb_restart",
    "C107_mariadb_replicas",
    "C107_mariadb_position",
    "C107_mariadb_once",
    "C107_mariadb_everything"
   ],
   "note": "On top of C105, C05 and C11. A set whose ids were typed without hyphens (32 characters) is outside: its text does not read back (C107_short_id_refuted). The stored coordinates start again at file '' and position 4, as from_mysql_gtid and from_mariadb_gtid leave them. That a connection is ever taken to its end is a hypothesis of the two theorems named everything, not a conclusion."
  }
 ]
}