{"id": "C01", "title": "Adding a GTID adds exactly that transaction", "statement": "Starting from a MySQL GtidSet, after any sequence of add_gtid calls the set contains exactly the transactions it contained at the start plus the added ones: none is lost, none is invented, for every server UUID.", "quantifier": "all gtid sets whose intervals are non-empty (start<=end), in any order, overlapping or not; all finite sequences of add_gtid calls with transaction ids below 2^64-1; debug and release builds", "why_tests_cant": "interval merging depends on the whole history of insertions; finite tests sample a handful of orders", "anchors": ["src/providers/mysql/gtid/gtid_set.rs: GtidSet::add_gtid", "src/providers/mysql/gtid/uuid_set.rs: UuidSet::add_gtid, find_interval_index, collapse_intervals"]}
{"id": "C02", "title": "GTID intervals stay canonical", "statement": "If a server's intervals are sorted, pairwise disjoint and never adjacent, they still are after any sequence of add_gtid calls; starting from an empty set they always are.", "quantifier": "all canonical sets, all finite add histories", "why_tests_cant": "an invariant over unbounded histories", "anchors": ["src/providers/mysql/gtid/uuid_set.rs: UuidSet::add_gtid, find_interval_index, collapse_intervals"]}
{"id": "C03", "title": "add_gtid reports novelty exactly", "statement": "On a canonical set add_gtid returns true if and only if the transaction was not in the set before.", "quantifier": "all canonical sets and all transaction ids below 2^64-1", "why_tests_cant": "binary search correctness over all interval lists", "anchors": ["src/providers/mysql/gtid/uuid_set.rs: UuidSet::add_gtid"]}
{"id": "C04", "title": "The text of a GtidSet depends only on its members", "statement": "Two GtidSets built by adding the same transactions in any orders and multiplicities to the empty set print the same text, whatever the hash map's iteration order.", "quantifier": "all pairs of add histories with the same set of (uuid, id) members; all iteration orders", "why_tests_cant": "quantifies over all permutations and all hash seeds", "anchors": ["src/providers/mysql/gtid/gtid_set.rs: Display for GtidSet", "src/providers/mysql/gtid/uuid_set.rs: Display for UuidSet", "src/providers/mysql/gtid/interval.rs: Display for Interval"]}
{"id": "C05", "title": "GtidSet text round trip", "statement": "Parsing the text printed for a canonical GtidSet (the text users persist as their checkpoint) succeeds and yields a set with the same servers, the same intervals and the same text.", "quantifier": "all canonical sets over canonical UUIDs, any number of servers and intervals, all u64 bounds", "why_tests_cant": "unbounded numbers of servers, intervals and digits", "anchors": ["src/providers/mysql/gtid/gtid_set.rs: GtidSet::parse, Display for GtidSet", "src/providers/mysql/gtid/uuid.rs: Uuid::parse"]}
{"id": "C06", "title": "Parsing a GTID set keeps every listed transaction", "statement": "GtidSet::parse on text listing UUIDs with intervals, with any spaces around the comma separated parts and any newlines, yields a set containing exactly the listed transactions.", "quantifier": "all well-formed texts: any number of parts, intervals, whitespace", "why_tests_cant": "grammar is unbounded", "anchors": ["src/providers/mysql/gtid/gtid_set.rs: GtidSet::parse", "src/providers/mysql/gtid/uuid_set.rs: UuidSet::new, collapse_intervals"]}
{"id": "C07", "title": "GTID text parsing reports bad input as an error", "statement": "GtidSet::parse and GtidList::parse return Ok or Err on every string; they never panic.", "quantifier": "all Unicode strings", "why_tests_cant": "all strings", "anchors": ["src/providers/mysql/gtid/gtid_set.rs: GtidSet::parse", "src/providers/mysql/gtid/uuid.rs: Uuid::parse", "src/providers/mariadb/gtid/gtid_list.rs: GtidList::parse"]}
{"id": "C08", "title": "Server UUIDs print canonically and parse back", "statement": "Every 16-byte server id prints as lower-case 8-4-4-4-12 hex, distinct ids print differently, and parsing the printed text gives back the same bytes and the same text.", "quantifier": "all 2^128 server ids", "why_tests_cant": "2^128 values", "anchors": ["src/providers/mysql/gtid/uuid.rs: Uuid::new, Uuid::parse, Display for Uuid"]}
{"id": "C09", "title": "One entry per server", "statement": "A GtidSet never holds two entries for the same 16-byte server id, however the set was written by the user and whatever GTIDs are added.", "quantifier": "all parsed texts, all add histories", "why_tests_cant": "spelling variants and histories", "anchors": ["src/providers/mysql/gtid/gtid_set.rs: GtidSet::parse, GtidSet::add_gtid", "src/providers/mysql/gtid/uuid.rs: Uuid::parse"]}
{"id": "C10", "title": "MariaDB GtidList is a last-write-wins map by domain", "statement": "After any sequence of add_gtid calls a MariaDB GtidList with unique domains still has unique domains; each added domain maps to the last gtid added for it, every other domain is unchanged, order is preserved and new domains are appended; the return value is true exactly for a new domain.", "quantifier": "all lists, all finite add histories", "why_tests_cant": "unbounded histories", "anchors": ["src/providers/mariadb/gtid/gtid_list.rs: GtidList::add_gtid"]}
{"id": "C11", "title": "MariaDB GtidList text round trip", "statement": "Parsing the text printed for any MariaDB GtidList with unique domains gives back the same list; text that repeats a domain is rejected; every list returned by parse has unique domains.", "quantifier": "all lists of any length, all u32/u32/u64 values; all texts for the rejection part", "why_tests_cant": "unbounded lengths and values", "anchors": ["src/providers/mariadb/gtid/gtid_list.rs: GtidList::parse, Display for GtidList", "src/providers/mariadb/gtid/gtid.rs: Display for Gtid"]}
{"id": "C12", "title": "MySQL GTID checkpoint covers exactly the completed transactions", "statement": "In GTID mode, after commit() has been called on any prefix of any MySQL event stream made of GTID-marked transactions (BEGIN .. XID/COMMIT/ROLLBACK, or a single auto-committed statement) interleaved with service events, the client's gtid_set is the initial set plus exactly the GTIDs of the transactions that lie completely inside the prefix.", "quantifier": "all streams, all crash points (prefixes), all event headers, all initial sets with non-empty intervals and all transaction numbers below 2^64-1 (C01)", "why_tests_cant": "every crash point of every history", "anchors": ["src/binlog_client.rs: BinlogClient::commit, update_gtid_position, commit_gtid"]}
{"id": "C13", "title": "MariaDB GTID checkpoint covers exactly the completed transactions", "statement": "In GTID mode, after commit() on any prefix of any MariaDB event stream, gtid_list maps every domain to the last transaction of that domain that lies completely inside the prefix (or its initial value).", "quantifier": "all streams of MariaDB event groups, all crash points", "why_tests_cant": "every crash point of every history", "anchors": ["src/binlog_client.rs: BinlogClient::commit, update_gtid_position, commit_gtid"]}
{"id": "C14", "title": "At-least-once delivery across reconnects in MySQL GTID mode", "statement": "With a server that sends, in order, every transaction missing from the requested set, and a client restarted from its saved gtid_set after any number of crashes at any points: every transaction in the final set and not in the initial one was delivered completely in one session, no transaction completed in a session is sent again, and a session that runs to the end of the log leaves every transaction of the log in the set.", "quantifier": "all logs with distinct GTIDs and transaction numbers below 2^64-1, all numbers of sessions, all crash points per session", "why_tests_cant": "schedules of crashes over unbounded logs", "anchors": ["src/binlog_client.rs: BinlogClient::replicate, commit, commit_gtid"]}
{"id": "C15", "title": "Binlog coordinates follow the stream", "statement": "After commit() on any event history, options.binlog.filename/position equal the coordinates given by the last committed event that carries any: a rotate event's target, or the non-zero next position of an event other than a table map; positions are kept modulo 2^32; nothing else changes them.", "quantifier": "all histories of events and headers", "why_tests_cant": "unbounded histories", "anchors": ["src/binlog_client.rs: BinlogClient::commit, update_binlog_position"]}
{"id": "C16", "title": "Resuming from the saved position loses and repeats no row event", "statement": "For any sequence of binlog files and any crash point, the events of the log from the saved file/position onwards are exactly the events not yet committed, preceded only by table map events that were committed directly before the crash.", "quantifier": "all logs (any number of files, any positions below 2^32), all crash points", "why_tests_cant": "every crash point of every log", "anchors": ["src/binlog_client.rs: update_binlog_position", "src/events/rotate_event.rs: RotateEvent"]}
{"id": "C17", "title": "Resuming never separates a row event from its table map", "statement": "For any crash point, re-reading the log from the saved position with a fresh parser never meets a row event whose table map lies before that position.", "quantifier": "all logs, all crash points", "why_tests_cant": "every crash point", "anchors": ["src/binlog_client.rs: update_binlog_position", "src/events/row_events/row_parser.rs: parse_row_data_list, TABLE_MAP_NOT_FOUND"]}
{"id": "C18", "title": "Rotation target is stored exactly", "statement": "After committing a rotate event the saved position equals the position announced by the event.", "quantifier": "all rotate events (64-bit positions)", "why_tests_cant": "2^64 positions", "anchors": ["src/binlog_client.rs: update_binlog_position"]}
{"id": "C19", "title": "GTID state is untouched outside GTID mode", "statement": "With any starting strategy other than FromGtid, no sequence of commit() calls changes gtid_set or gtid_list; and no commit() changes anything else in the options than filename, position and the two GTID positions.", "quantifier": "all histories, all options", "why_tests_cant": "unbounded histories", "anchors": ["src/binlog_client.rs: commit, update_gtid_position"]}
{"id": "C20", "title": "commit() never panics", "statement": "Calling commit() on any event never panics, for any client whose gtid_set was obtained through the public constructors (parse, new, add_gtid, or decoded from the stream).", "quantifier": "all reachable clients, all events", "why_tests_cant": "reachability over all histories (hides an unwrap())", "anchors": ["src/binlog_client.rs: commit_gtid (unwrap)", "src/providers/mysql/gtid/uuid_set.rs: UuidSet::add_gtid"]}
{"id": "C21", "title": "Offline reading yields the events of the file in order", "statement": "For a file consisting of the magic number and any sequence of well-framed events, BinlogReader's iterator yields exactly one result per event, in order, equal to decoding that event's payload with the decoder state left by the previous ones, and then None.", "quantifier": "all event sequences, payload sizes below and above the 32 KiB internal buffer, any content left in the reused buffer", "why_tests_cant": "unbounded files; buffer reuse hazards", "anchors": ["src/binlog_reader.rs: BinlogReader::new, read_event, Iterator::next"]}
{"id": "C22", "title": "A truncated binlog file yields exactly its complete events", "statement": "Cutting a well-framed binlog file at any byte after the magic number makes the iterator yield exactly the results of the events that lie completely before the cut, then None.", "quantifier": "all files, all cut points", "why_tests_cant": "every crash point of the writer", "anchors": ["src/binlog_reader.rs: read_event, Iterator::next"]}
{"id": "C23", "title": "End of iteration means end of file", "statement": "BinlogReader's iterator returns None only when the file has no further complete event.", "quantifier": "all file contents", "why_tests_cant": "all file contents", "anchors": ["src/binlog_reader.rs: Iterator::next"]}
{"id": "C24", "title": "Files without the binlog magic are refused", "statement": "BinlogReader::new succeeds exactly on streams that start with FE 62 69 6E.", "quantifier": "all byte streams", "why_tests_cant": "all byte streams", "anchors": ["src/binlog_reader.rs: BinlogReader::new"]}
{"id": "C25", "title": "The checksum trailer never reaches the decoded event", "statement": "With CRC32 checksums active, the decoded event and the decoder state depend only on the payload without its last four bytes, and equal what a server without checksums would have produced for the same payload.", "quantifier": "all headers, payloads and checksum bytes, all decoder states", "why_tests_cant": "all payloads", "anchors": ["src/events/event_parser.rs: EventParser::parse_event"]}
{"id": "C26", "title": "A corrupted event is not reported as valid data", "statement": "With CRC32 checksums active an event whose checksum does not match its content is rejected.", "quantifier": "all events, all corruptions", "why_tests_cant": "all corruptions", "anchors": ["src/events/event_parser.rs: parse_event (\"Consider verifying checksum\")"]}
{"id": "C27", "title": "The checksum algorithm announced by the format description event is honoured", "statement": "Decoding a format description event returns the binlog version, server version and checksum algorithm it carries (none for servers predating checksums), and the decoder strips checksums of all following events accordingly.", "quantifier": "all versions strings, all numbers of event types, all three layouts, debug and release builds", "why_tests_cant": "all layouts and lengths (8-bit arithmetic on lengths)", "anchors": ["src/events/format_description_event.rs: FormatDescriptionEvent::parse", "src/events/event_parser.rs: parse_event"]}
{"id": "C28", "title": "Event headers decode exactly", "statement": "EventHeader::parse recovers all six fields of every 19-byte header, ignores what follows, and fails with an end-of-file error on every shorter slice.", "quantifier": "all headers, all slices", "why_tests_cant": "2^152 headers", "anchors": ["src/events/event_header.rs: EventHeader::parse"]}
{"id": "C29", "title": "Service events decode exactly", "statement": "Rotate, xid, intvar, heartbeat, rows-query, annotate-rows, query and user-variable events decode to exactly the fields the server wrote.", "quantifier": "all field values, all strings of Unicode text of any length; user variables with text values (others: C68)", "why_tests_cant": "unbounded strings", "anchors": ["src/events/rotate_event.rs", "src/events/xid_event.rs", "src/events/intvar_event.rs", "src/events/heartbeat_event.rs", "src/events/rows_query_event.rs", "src/events/query_event.rs", "src/events/uservar_event.rs"]}
{"id": "C30", "title": "GTID events decode exactly", "statement": "MySQL GTID and previous-GTIDs events and MariaDB GTID and GTID-list events decode to exactly the transaction ids the server wrote.", "quantifier": "all ids, any number of servers and intervals", "why_tests_cant": "unbounded lists", "anchors": ["src/providers/mysql/events/gtid_event.rs", "src/providers/mysql/events/prev_gtids_event.rs", "src/providers/mariadb/events/gtid_event.rs", "src/providers/mariadb/events/gtid_list_event.rs"]}
{"id": "C31", "title": "Unknown event types are skipped", "statement": "An event whose type is not supported yields UnknownEvent without error and without changing the decoder state, whatever its payload (under CRC32: any payload followed by its four checksum bytes).", "quantifier": "all type codes outside the supported list, all payloads", "why_tests_cant": "all payloads", "anchors": ["src/events/event_parser.rs: parse_event", "src/events/event_type.rs: EventType::from_code"]}
{"id": "C32", "title": "Malformed service and GTID events never panic", "statement": "Decoding any bytes as rotate, xid, intvar, heartbeat, rows-query, query, user-variable, MySQL GTID, MariaDB GTID or MariaDB GTID-list events returns Ok or Err; it neither panics nor loops forever.", "quantifier": "all payloads, both checksum modes (payload of at least four bytes for CRC32)", "why_tests_cant": "all byte strings", "anchors": ["src/events/event_parser.rs: parse_event"]}
{"id": "C33", "title": "No input makes the decoder panic or hang", "statement": "Decoding any event with any payload in any decoder state returns Ok or Err.", "quantifier": "all headers, payloads and decoder states", "why_tests_cant": "all byte strings and histories", "anchors": ["src/events/event_parser.rs: parse_event", "src/events/row_events/row_parser.rs: parse_row, parse_row_data_list"]}
{"id": "C34", "title": "Length-encoded integers decode exactly", "statement": "Every 64-bit number is recovered from each of its legal length encodings, exactly the encoded bytes are consumed, and the markers 0xFB and 0xFF are rejected.", "quantifier": "all u64 values, all surrounding bytes", "why_tests_cant": "2^64 values", "anchors": ["src/extensions.rs: read_len_enc_num"]}
{"id": "C35", "title": "Bitmaps decode exactly", "statement": "Column bitmaps (little-endian bit order) of every length decode to the bits the server wrote; exactly ceil(n/8) bytes are consumed; padding bits are ignored.", "quantifier": "all bit strings of all lengths, all padding", "why_tests_cant": "unbounded lengths", "anchors": ["src/extensions.rs: read_bitmap_little_endian, read_bitmap_big_endian", "src/metadata/table_metadata.rs: read_bitmap_reverted"]}
{"id": "C36", "title": "Text is accepted exactly when it is UTF-8 and is never altered", "statement": "Byte strings become text exactly when they are well-formed UTF-8, and the text re-encodes to the same bytes.", "quantifier": "all byte strings", "why_tests_cant": "all byte strings", "anchors": ["src/extensions.rs: read_string", "src/events/query_event.rs: read_to_string"]}
{"id": "C37", "title": "NUL-terminated strings decode exactly", "statement": "A NUL-terminated string decodes to the text before the terminator and the cursor stops after it; an unterminated one does not lose characters.", "quantifier": "all strings", "why_tests_cant": "all strings", "anchors": ["src/extensions.rs: read_null_term_string"]}
{"id": "C38", "title": "Integer, float, enum, set, blob and string cells decode exactly", "statement": "TINY/SHORT/INT24/LONG/LONGLONG/FLOAT/DOUBLE/ENUM/SET/BLOB/GEOMETRY/JSON/VARCHAR/CHAR cells decode to the value whose bytes the server wrote, consuming exactly those bytes.", "quantifier": "all values, all lengths and length-prefix sizes", "why_tests_cant": "all values", "anchors": ["src/events/row_events/row_parser.rs: parse_cell", "src/events/row_events/col_parser.rs: parse_blob, parse_string"]}
{"id": "C39", "title": "DECIMAL values decode exactly", "statement": "For every precision 1..65 and scale up to 30, decoding the server's packed form of a decimal number yields its decimal text: sign, integral digits without leading zeros, exactly scale fractional digits.", "quantifier": "all precisions, scales, signs and digit strings (no bound on precision up to the byte range)", "why_tests_cant": "10^65 values per precision/scale", "anchors": ["src/events/row_events/decimal.rs: parse_decimal"]}
{"id": "C40", "title": "Temporal values decode exactly", "statement": "YEAR, DATE, TIME, DATETIME, TIMESTAMP and their fractional-second forms decode to the calendar fields the server stored, with the fraction truncated to milliseconds; negative TIME values are rejected, never mis-decoded.", "quantifier": "all field values in MySQL's ranges, all fsp 0..6", "why_tests_cant": "all values", "anchors": ["src/events/row_events/col_parser.rs: parse_year .. parse_fractional_part"]}
{"id": "C41", "title": "BIT values decode most significant bit first", "statement": "A BIT(n) cell decodes to its n bits, most significant first, for every n.", "quantifier": "all n, all values", "why_tests_cant": "2^n values", "anchors": ["src/events/row_events/col_parser.rs: parse_bit", "src/extensions.rs: read_bitmap_big_endian"]}
{"id": "C42", "title": "CHAR/ENUM/SET columns are recognised in STRING metadata", "statement": "For every CHAR length below 1024 bytes and every ENUM/SET pack length the real type and length are recovered from the packed STRING metadata.", "quantifier": "all lengths and pack lengths", "why_tests_cant": "all 2^16 metadata words", "anchors": ["src/events/row_events/actual_string_type.rs: get_actual_string_type"]}
{"id": "C43", "title": "Table map events decode exactly", "statement": "A table map event decodes to the table id, names, column types, per-column metadata, nullability and optional metadata the server wrote.", "quantifier": "all tables, any number of columns, all column types, all optional metadata fields in any order", "why_tests_cant": "unbounded schemas", "anchors": ["src/events/table_map_event.rs: TableMapEvent::parse, parse_metadata", "src/metadata/table_metadata.rs: TableMetadata::parse"]}
{"id": "C44", "title": "Row events decode to the rows the server wrote", "statement": "For any table and any list of rows, with any subset of columns present and any NULLs, the write/delete/update rows events (v1 and v2, any extra data) decode to exactly these rows, in order, one cell per table column.", "quantifier": "all schemas, rows, presence bitmaps, null patterns, event versions", "why_tests_cant": "unbounded schemas and data", "anchors": ["src/events/row_events/row_parser.rs: parse_row, parse_row_data_list, parse_update_row_data_list, parse_head", "src/events/row_events/write_rows_event.rs", "src/events/row_events/update_rows_event.rs", "src/events/row_events/delete_rows_event.rs"]}
{"id": "C45", "title": "Every decoded row has one cell per table column", "statement": "Whatever the payload bytes, each row of a successfully decoded rows event has exactly as many cells as the table map has columns, and absent columns are None.", "quantifier": "all payloads, all decoder states", "why_tests_cant": "all byte strings", "anchors": ["src/events/row_events/row_parser.rs: parse_row"]}
{"id": "C46", "title": "Row events use the latest table map of their table id", "statement": "After any history of events, a rows event is decoded with the most recent table map event carrying its table id; if there is none the result is the documented error; other events never change the mapping.", "quantifier": "all event histories", "why_tests_cant": "unbounded histories", "anchors": ["src/events/event_parser.rs: parse_event (table_map)", "src/events/row_events/row_parser.rs: TABLE_MAP_NOT_FOUND"]}
{"id": "C47", "title": "Decoding a rows event terminates", "statement": "Decoding a rows event always terminates, after reading each payload byte at most once.", "quantifier": "all payloads", "why_tests_cant": "all byte strings", "anchors": ["src/events/row_events/row_parser.rs: parse_row_data_list, parse_update_row_data_list"]}
{"id": "C48", "title": "Position dump request carries the saved coordinates", "statement": "The server reading the binlog dump request obtains exactly the client's current file name and position and the configured server id (0 in non-blocking mode).", "quantifier": "all file names, positions, server ids", "why_tests_cant": "all values", "anchors": ["src/commands/dump_binlog_command.rs: DumpBinlogCommand::serialize", "src/providers/mysql/mysql_provider.rs: replicate_mysql"]}
{"id": "C49", "title": "GTID dump request carries exactly the saved GTID set", "statement": "The server reading the GTID dump request obtains exactly the set of transactions in gtid_set, and the declared lengths match, whatever the hash map's iteration order.", "quantifier": "all canonical gtid sets with ends below 2^64-1 whose encoding the 32-bit length field can announce, all iteration orders", "why_tests_cant": "unbounded sets, all hash seeds", "anchors": ["src/commands/dump_binlog_gtid_command.rs: DumpBinlogGtidCommand::serialize"]}
{"id": "C50", "title": "In GTID mode a reconnect is positioned by GTID alone", "statement": "In MySQL GTID mode the dump request sent on reconnect contains no file coordinates of the previous connection.", "quantifier": "all histories between connects", "why_tests_cant": "unbounded histories", "anchors": ["src/providers/mysql/mysql_provider.rs: replicate_mysql", "src/binlog_client.rs: update_binlog_position"]}
{"id": "C51", "title": "Login and registration packets are what the server expects", "statement": "The handshake response, SSL request, query and register-slave packets parse on the server side to the configured user, database, plugin, flags, statement and server id.", "quantifier": "all user names, databases and plugin names without NUL, all statements", "why_tests_cant": "all strings", "anchors": ["src/commands/authenticate_command.rs", "src/commands/query_command.rs", "src/commands/register_slave_command.rs", "src/commands/ssl_request_command.rs"]}
{"id": "C52", "title": "mysql_native_password replies are accepted", "statement": "For every password and scramble, a server holding SHA1(SHA1(password)) accepts the client's reply.", "quantifier": "all passwords and scrambles, any hash function in place of SHA-1 with fixed output length", "why_tests_cant": "all passwords", "anchors": ["src/extensions.rs: encrypt_password, xor"]}
{"id": "C53", "title": "caching_sha2_password fast-path replies are accepted", "statement": "For every password and scramble, a server holding SHA256(SHA256(password)) accepts the client's reply on the fast path.", "quantifier": "all passwords and scrambles", "why_tests_cant": "all passwords", "anchors": ["src/extensions.rs: encrypt_password"]}
{"id": "C54", "title": "The RSA path delivers the password", "statement": "On the caching_sha2_password full-authentication path the server, after decrypting and removing the scramble, obtains the password followed by NUL.", "quantifier": "all passwords, all non-empty scrambles, any correct public-key scheme", "why_tests_cant": "all passwords", "anchors": ["src/connect.rs: authenticate_sha_256", "src/extensions.rs: xor"]}
{"id": "C55", "title": "Packets are framed and unframed exactly", "statement": "Any sequence of packets shorter than 16 MiB written by one side is read by the other as the same sequence with the same sequence numbers.", "quantifier": "all packet sequences", "why_tests_cant": "unbounded sequences", "anchors": ["src/packet_channel.rs: read_packet, write_packet"]}
{"id": "C56", "title": "write_packet sends the whole packet", "statement": "If write_packet returns Ok the complete packet has been handed to the operating system.", "quantifier": "all packets, all behaviours of the socket (short writes)", "why_tests_cant": "scheduler and OS dependent", "anchors": ["src/packet_channel.rs: write_packet (Write::write)"]}
{"id": "C57", "title": "The network stream yields the server's events in order", "statement": "For any sequence of event packets the iterator yields the decoded events in order; a server error packet yields Err with its code and message; an EOF packet ends the iteration; any other status yields an error.", "quantifier": "all packet sequences", "why_tests_cant": "unbounded sequences", "anchors": ["src/binlog_events.rs: Iterator::next, read_event, read_error"]}
{"id": "C58", "title": "A read time-out does not corrupt the events that follow", "statement": "After a time-out error the iterator resumes at the next packet boundary.", "quantifier": "all timings of partial reads", "why_tests_cant": "schedule dependent", "anchors": ["src/packet_channel.rs: read_packet", "src/binlog_events.rs: Iterator::next"]}
{"id": "C59", "title": "Server error packets are decoded exactly", "statement": "An ERR packet decodes to its code, SQL state (when present) and message, and every command that receives one fails.", "quantifier": "all codes, states and messages", "why_tests_cant": "all strings", "anchors": ["src/responses/error_packet.rs: ErrorPacket::parse", "src/extensions.rs: check_error_packet"]}
{"id": "C60", "title": "The initial handshake is decoded exactly", "statement": "The server's initial handshake packet decodes to its version, connection id, scramble (both parts), capabilities and plugin name.", "quantifier": "all numbers, all NUL-free UTF-8 texts, reserved bytes below 128; which other packets are accepted: exactly", "why_tests_cant": "all values", "anchors": ["src/responses/handshake_packet.rs: HandshakePacket::parse"]}
{"id": "C61", "title": "replicate() requests events only after every set-up step succeeded", "statement": "Whatever the server answers, a dump request is sent only if no earlier response was an error, it is the last packet sent, and it carries the coordinates/GTIDs current at that time; on success the set-up statements were sent in the documented order.", "quantifier": "all server response sequences, all options", "why_tests_cant": "all response sequences", "anchors": ["src/binlog_client.rs: replicate", "src/configure.rs", "src/providers/mysql/mysql_provider.rs", "src/providers/mariadb/mariadb_provider.rs"]}
{"id": "C62", "title": "FromEnd starts at the position reported by the server, once", "statement": "With FromEnd and no file name yet, replicate() takes file and position from the server's master status; with a file name present it never asks again; a failed attempt leaves the saved coordinates unchanged.", "quantifier": "all server responses, all options", "why_tests_cant": "all response sequences", "anchors": ["src/configure.rs: adjust_starting_position"]}
{"id": "C63", "title": "The MariaDB connect-state statement is well quoted", "statement": "The statement that passes the GTID list to MariaDB contains exactly the list's text between its two quotes: no list can break out of the literal.", "quantifier": "all GTID lists", "why_tests_cant": "all values", "anchors": ["src/providers/mariadb/mariadb_provider.rs: register_gtid_slave"]}
{"id": "C64", "title": "Heartbeats are requested more often than the read times out", "statement": "The heartbeat period requested from the server never exceeds the configured interval and is always shorter than the socket read time-out.", "quantifier": "all intervals for which the read time-out can be computed (exactly which: C64_timeout)", "why_tests_cant": "all durations", "anchors": ["src/configure.rs: set_master_heartbeat", "src/packet_channel.rs: PacketChannel::new"]}
{"id": "C65", "title": "Result sets are read exactly", "statement": "A text result set sent by the server is read as exactly its rows and cells, and nothing of the following response is consumed.", "quantifier": "all result sets of any size", "why_tests_cant": "unbounded", "anchors": ["src/configure.rs: read_result_set", "src/responses/result_set_row_packet.rs: ResultSetRowPacket::parse"]}
{"id": "C66", "title": "Transactions survive the whole pipeline", "statement": "From the bytes of a replication stream (packets framed, checksums on or off) to the rows seen by the user and the checkpoint saved by commit(): for any MySQL row-based stream, any prefix delivers exactly the server's rows and the checkpoint covers exactly the complete transactions.", "quantifier": "all streams, all prefixes", "why_tests_cant": "composition of all of the above over unbounded streams", "anchors": ["src/binlog_events.rs", "src/events/event_parser.rs", "src/binlog_client.rs"]}
{"id": "C67", "title": "GTID checkpoint of MySQL XA transactions", "statement": "For an XA transaction in the stream (GTID, XA START, rows, XA END, XA_PREPARE), the saved set contains its GTID after a prefix exactly if the prefix contains the whole transaction.", "quantifier": "all XA transactions, all prefixes", "why_tests_cant": "crash points inside every transaction, unbounded bodies", "anchors": ["src/binlog_client.rs: update_gtid_position", "src/binlog_client.rs: commit_gtid"]}
{"id": "C68", "title": "User variables of every type decode to their value", "statement": "A user-variable event decodes to the bytes of the variable's value, whatever its type (text, integer, real, decimal).", "quantifier": "all names, types and values", "why_tests_cant": "all values; integers and reals are sent in binary form", "anchors": ["src/events/uservar_event.rs: UserVarEvent::parse"]}
{"id": "C69", "title": "Accounts without a password can log in", "statement": "For an account without a password, whose server expects an empty authentication reply, the client's reply is accepted.", "quantifier": "all scrambles, all hash functions with fixed output length", "why_tests_cant": "the reply must be empty for every scramble; a live server with such an account is needed", "anchors": ["src/extensions.rs: encrypt_password", "src/commands/authenticate_command.rs: serialize"]}
{"id": "C70", "title": "Events of 16 MiB and more are delivered whole", "statement": "An event whose packet body reaches the 16777215-byte packet limit, and is therefore sent in several packets, is yielded as one event.", "quantifier": "all events of any size", "why_tests_cant": "needs events above 16 MiB from a live server, of every size", "anchors": ["src/packet_channel.rs: read_packet", "src/binlog_events.rs: next"]}
{"id": "C71", "title": "Every response is read as the answer to its own command", "statement": "Whatever way the login is completed, a response of the server is taken for the answer to the command it answers: an error in answer to a set-up statement is reported as that statement's error and no further statement is sent.", "quantifier": "all login paths, all server response sequences", "why_tests_cant": "all interleavings of login paths and responses", "anchors": ["src/connect.rs: authenticate_sha_256", "src/configure.rs: read_result_set"]}
{"id": "C72", "title": "No server response makes replicate() panic", "statement": "Whatever the server sends, replicate() returns Ok or Err.", "quantifier": "all byte streams", "why_tests_cant": "all byte streams", "anchors": ["src/connect.rs", "src/configure.rs", "src/extensions.rs: check_error_packet"]}
{"id": "C73", "title": "Every non-zero heartbeat interval requests heartbeats", "statement": "With a heartbeat interval above zero the period requested from the server is above zero (zero disables heartbeats).", "quantifier": "all intervals", "why_tests_cant": "all durations", "anchors": ["src/configure.rs: set_master_heartbeat"]}
{"id": "C74", "title": "No transaction lost or repeated over byte-level reconnects", "statement": "MySQL GTID mode, on the level of bytes: a program calls replicate(), iterates over the events and commits each, and starts again after every failure. For any log with distinct GTIDs, any number of connections and failed attempts, any server that sends what is missing from the set it reads in the request (rows with at least one column in the image, packets below 16 MB), and any number of bytes arriving each time in any portions: the completely received transactions, in order of reception, are a prefix of those missing at the start, none is sent again later, and the saved set leaves exactly the rest to be sent.", "quantifier": "all logs, sequences of connections, byte cuts, portions", "why_tests_cant": "needs a server, connection failures at every byte, unbounded repetition", "anchors": ["src/binlog_client.rs", "src/binlog_events.rs", "src/packet_channel.rs", "src/commands/dump_binlog_gtid_command.rs", "src/events/event_parser.rs"]}
{"id": "C75", "title": "Server flavour is recognised from the greeting", "statement": "connect() takes the server for MariaDB exactly if the version text of its greeting contains 'MariaDB' anywhere, and for MySQL otherwise; this decides which commands follow (C61).", "quantifier": "all version texts, all greetings, all sessions", "why_tests_cant": "every version string a server or proxy may send", "anchors": ["src/constants/database_provider.rs", "src/connect.rs: connect"]}
{"id": "C76", "title": "Committing again changes nothing", "statement": "Committing an event a second time leaves the client exactly as after the first time, and when, after a break anywhere, a server delivers the same MySQL events again from the start, committing them leaves set, file and position as they were.", "quantifier": "all clients with canonical sets, events with transaction numbers below 2^64-1, streams of transactions, cuts", "why_tests_cant": "all states and streams of any length", "anchors": ["src/binlog_client.rs: commit, update_gtid_position, commit_gtid, update_binlog_position", "src/providers/mysql/gtid/gtid_set.rs: add_gtid"]}
{"id": "C77", "title": "What any sequence of events leaves in the checkpoint", "statement": "For arbitrary events, not only well-formed transactions: the saved MySQL set grows by exactly the GTIDs that were the latest announced when a transaction end, or a statement outside BEGIN, was committed; the saved MariaDB position of each domain is the last one recorded that way; nothing saved is ever forgotten.", "quantifier": "all event sequences with transaction numbers below 2^64-1, all clients in GTID mode", "why_tests_cant": "all interleavings of all event kinds, unbounded length", "anchors": ["src/binlog_client.rs: update_gtid_position, commit_gtid"]}
{"id": "C78", "title": "A server's binlog file reads back as the events written", "statement": "Reading a binlog file yields exactly the events the server wrote (all event types, the checksum setting taken from the file's format description), and, when the file is cut after any byte, those before the cut; over the network the same events are yielded, whatever checksum setting the connection starts with.", "quantifier": "all files, cuts, tables, rows, checksum settings", "why_tests_cant": "all event sequences of all types and all cuts", "anchors": ["src/binlog_reader.rs", "src/binlog_events.rs", "src/events/event_parser.rs"]}
{"id": "C79", "title": "Decoding does not amplify", "statement": "What an event decodes to is bounded by the bytes it was decoded from: the rows, and the total length of the strings, blobs, bit strings and names handed over, together never exceed the length of the event, whatever the bytes, the checksum setting and the registered tables.", "quantifier": "all byte sequences, headers, parser states", "why_tests_cant": "all hostile or damaged inputs", "anchors": ["src/events/event_parser.rs", "src/events/row_events/", "src/events/table_map_event.rs", "src/metadata/"]}
{"id": "C80", "title": "Texts identify GTIDs and GTID sets", "statement": "The text of a single GTID is the text of the set of exactly this transaction and parses to that set, so two different GTIDs never have the same text; two sets with the same text are the same set.", "quantifier": "all server ids, transaction numbers, canonical sets", "why_tests_cant": "all pairs of values", "anchors": ["src/providers/mysql/gtid/gtid.rs", "src/providers/mysql/gtid/gtid_set.rs"]}
{"id": "C81", "title": "Replication starts where the options say", "statement": "Whenever replicate() succeeds, its last packet is the dump request and asks for: the first event of the first file (from_start), the given file and position (from_position), exactly the transactions missing from the given set (from_mysql_gtid on a MySQL server), and, after the server has been told the given list, the first event (from_mariadb_gtid on a MariaDB server).", "quantifier": "all options built by these constructors, all servers and responses", "why_tests_cant": "all response sequences, all positions and sets", "anchors": ["src/binlog_options.rs", "src/binlog_client.rs: replicate", "src/configure.rs"]}
{"id": "C82", "title": "Exactly once across reconnects to a MariaDB server", "statement": "Whatever part of the bytes arrives on each of any number of connections to a MariaDB server, and however many attempts fail in between, the event groups taken completely are, in order, the first of those after the saved position, none twice and none missing, and the position saved in the end leaves exactly the others to be sent.", "quantifier": "all logs with several domains, all cuts, all numbers of connections", "why_tests_cant": "all sequences of breaks at all bytes", "anchors": ["src/providers/mariadb/mariadb_provider.rs", "src/providers/mariadb/gtid/gtid_list.rs", "src/binlog_client.rs: replicate, commit, commit_gtid"]}
{"id": "C83", "title": "No login in the clear when SSL is required", "statement": "With an SSL mode other than Disabled, nothing but an SSL request (without user name, without anything made from the password) is ever sent to a server that offers SSL, and nothing at all to one that does not if the mode requires SSL, which then is the error; IfAvailable with a server without SSL is exactly Disabled.", "quantifier": "all servers, greetings, byte streams, settings", "why_tests_cant": "all responses of a hostile server", "anchors": ["src/connect.rs: authenticate", "src/ssl_mode.rs"]}
{"id": "C84", "title": "Exactly once across reconnects by file and position", "statement": "Whatever part of the bytes arrives on each of any number of connections started from the saved file name and position (or from the start of the log), and however many attempts fail in between, the log events taken, table maps apart, are in order exactly those between the first and the last saved coordinates: none twice, none missing.", "quantifier": "all logs of any number of files, all artificial events, cuts, numbers of connections", "why_tests_cant": "all sequences of breaks at all bytes", "anchors": ["src/binlog_client.rs: replicate, commit, update_binlog_position", "src/commands/dump_binlog_command.rs", "src/binlog_events.rs"]}
{"id": "C85", "title": "Debug and release builds agree unless the debug build panics", "statement": "On every input on which the debug build does not panic, the release build returns the same and leaves the same state: decoding an event, parsing and extending GTID sets, committing, both event iterators and the whole of replicate(). So wrapped arithmetic is never observable where the debug build returns, and everything that panics in release builds panics in debug builds. Up to a panic of the debug build the two conversations with the server are the same.", "quantifier": "all inputs, states, event sequences, server byte streams", "why_tests_cant": "tests run one build; the two differ only at arithmetic overflows, which inputs reach in many places", "anchors": ["src/events/event_parser.rs", "src/providers/mysql/gtid/uuid_set.rs", "src/binlog_client.rs", "src/binlog_reader.rs", "src/binlog_events.rs", "src/connect.rs", "src/commands/dump_binlog_gtid_command.rs"]}
{"id": "C86", "title": "How the bytes are grouped on the way does not matter", "statement": "Two connections on which the same bytes and read time-outs arrive in the same order, however the bytes are grouped into reads, give the same result, the same client state and the same conversation in replicate(), and the same sequence of results from the event iterator.", "quantifier": "all byte streams, all ways of grouping them, all numbers of calls", "why_tests_cant": "the number of ways of splitting a stream is exponential in its length", "anchors": ["src/packet_channel.rs: read_packet", "src/connect.rs", "src/configure.rs", "src/binlog_events.rs"]}
{"id": "C87", "title": "A binlog file and the same events on a connection decode alike", "statement": "For all events of a file, whatever their payloads, the file iterator and the network iterator started in the same decoder state and fed with the same events hand out the same items in the same order, errors included; the only difference is that the file iterator hands out the end where the decoder runs out of bytes.", "quantifier": "all events with any payloads (well formed or not) below 16 MiB, all decoder states, all groupings of the bytes", "why_tests_cant": "two implementations compared on all inputs", "anchors": ["src/binlog_reader.rs", "src/binlog_events.rs", "src/events/event_parser.rs"]}
{"id": "C88", "title": "The password is sent only hashed or encrypted", "statement": "Everything replicate() sends, returns and leaves behind depends on the password only through its digests and through its encryption under the key the server sent; as long as the client has not asked for that key, only through the digests. In particular the password itself is never sent.", "quantifier": "all servers and byte streams, all settings, all hash functions and ciphers, both builds", "why_tests_cant": "a secrecy claim over all pairs of runs", "anchors": ["src/connect.rs: authenticate, handle_auth_plugin_switch, authenticate_sha_256", "src/commands/auth_plugin_switch_command.rs", "src/commands/authenticate_command.rs", "src/extensions.rs"]}
{"id": "C89", "title": "Events decode independently of each other", "statement": "What an event decodes to depends, besides its own bytes, only on the checksum algorithm and, for a rows event, on the table map last seen for the table it names; format descriptions change only the algorithm, table maps only the entry of their own table, other events nothing. So events of other tables can come in between without effect.", "quantifier": "all bytes, decoder states, event types", "why_tests_cant": "all interleavings of all events", "anchors": ["src/events/event_parser.rs", "src/events/row_events/row_parser.rs"]}
{"id": "C90", "title": "Fields appended to events by newer servers are skipped", "statement": "An event that decodes still decodes to the same if further bytes follow its last field, as newer servers append fields: for integer and user variable, XID, GTID, previous GTIDs and GTID list events, and for table map events with further optional metadata fields.", "quantifier": "all payloads that decode, all bytes appended", "why_tests_cant": "all future formats", "anchors": ["src/events/event_parser.rs", "src/metadata/table_metadata.rs", "src/metadata/metadata_type.rs", "src/providers/mysql/events/gtid_event.rs"]}
{"id": "C91", "title": "Row changes are never passed over silently", "statement": "Every event that carries changes of rows is handed out with its rows or as an error; the saved position never moves past changes that were not handed out.", "quantifier": "all event types and payloads, all decoder states", "why_tests_cant": "the type codes are spread over two servers and many versions", "anchors": ["src/events/event_type.rs", "src/events/event_parser.rs", "src/binlog_client.rs: commit"]}
{"id": "C92", "title": "replicate() succeeds exactly when the server accepted every step", "statement": "replicate() returns an event stream if and only if the packets received are a greeting of a supported plugin, an accepted login in one of its four dialogues, a master status where one is asked for, and an answer that is no error to every statement; the client then holds exactly the position read from them and nothing of an earlier stream. In every other case it returns an error or panics as C72 says. What the server sent after those packets is left for the event stream.", "quantifier": "all packet sequences of any length, both builds, all options and SSL modes", "why_tests_cant": "the sequences are unbounded, and an accepted sequence must be shown to be the only kind", "anchors": ["src/binlog_client.rs: replicate", "src/connect.rs", "src/configure.rs", "src/providers/mysql/mysql_provider.rs", "src/providers/mariadb/mariadb_provider.rs", "src/responses/*"]}
{"id": "C93", "title": "A refused write ends replicate() with an error and nothing follows it", "statement": "However the operating system answers the writes of replicate(): when it returns Ok, every packet was handed over whole and in order; when a write fails, replicate() returns that error, has sent and received until then exactly what it would have otherwise, sends nothing more, and leaves in the client what the packets received say.", "quantifier": "all servers, options and sequences of answers to writes (errors, any number of bytes taken, blocking)", "why_tests_cant": "needs faults at every write of every session", "anchors": ["src/packet_channel.rs: write_packet", "src/connect.rs", "src/configure.rs", "src/providers/mysql/mysql_provider.rs", "src/providers/mariadb/mariadb_provider.rs", "src/binlog_client.rs: replicate"]}
{"id": "C94", "title": "A binlog file can be followed while the server writes it", "statement": "When next() has returned None at the end of the file, or a read error, and the file grows or the disk recovers, the calls after it hand out the events that follow, none lost and none twice; short and interrupted reads make no difference.", "quantifier": "all files, all ways in which the operating system hands over their bytes, ends and errors at any byte", "why_tests_cant": "needs reads that end or fail at every byte of every file", "anchors": ["src/binlog_reader.rs: read_event, next"]}
{"id": "C95", "title": "Reconnecting in MySQL GTID mode, whatever the transactions consist of", "statement": "Over any number of connections to a MySQL server, every transaction of its log that the client does not have is taken completely exactly once, whatever events it consists of: BEGIN ... Xid, a statement, an XA transaction, a compressed transaction.", "quantifier": "all logs, all groups of events, all connections broken after any byte, all failed attempts in between", "why_tests_cant": "unbounded sequences of connections, groups of any shape, every byte as place of the break", "anchors": ["src/binlog_client.rs: replicate, update_gtid_position, commit_gtid", "src/commands/dump_binlog_gtid_command.rs", "src/binlog_events.rs"]}
{"id": "C96", "title": "The client connects to the configured host and port, and an unreachable server changes nothing", "statement": "BinlogClient::new panics exactly when SSL is asked for. The address handed to TcpStream::connect stands for the configured host name and port and for no other, whatever characters the host name has. When no connection comes about, replicate() returns the operating system's error, nothing is sent and the client is as before, after any number of attempts; when one does, everything goes on as described elsewhere with a read time-out of the heartbeat interval plus 10 s. Heartbeat intervals of 2^64 - 10 s and more, and no others, panic. The defaults are the documented ones.", "quantifier": "every host name, port, setting, state of the client, answer of the network, number of attempts", "why_tests_cant": "tests have no network and a handful of host names; the colon in a host name and the overflow of Duration need values nobody tries", "anchors": ["src/packet_channel.rs:13-19", "src/binlog_client.rs:23-38", "src/replica_options.rs:44-59", "src/connect.rs:19-20"]}
{"id": "C97", "title": "Packets lost, repeated or out of order are noticed", "statement": "The sequence numbers of received packets are checked: when a packet of the event stream is missing, comes twice or out of order, an error is handed out and no transaction is saved of which an event was missing.", "quantifier": "all streams of packets, all numbers, any number of calls; all dialogues at set-up", "why_tests_cant": "every possible numbering of every stream; a test server numbers its packets correctly", "anchors": ["src/packet_channel.rs:21-32", "src/binlog_events.rs:43-59", "src/connect.rs"]}
{"id": "C98", "title": "The table descriptions the decoder keeps are bounded", "statement": "The decoder keeps a table description only as long as row events can refer to it; what it keeps is bounded by the tables of the server, however long the stream is.", "quantifier": "all sequences of events of any length", "why_tests_cant": "unbounded streams; a leak shows after weeks", "anchors": ["src/events/event_parser.rs:25-39", "src/events/event_parser.rs:113-119"]}
{"id": "C99", "title": "Statements in every character set are handed out", "statement": "A statement event is handed out whatever the character set of the client that sent the statement; no transaction is left out or sent for ever because of the characters in it.", "quantifier": "all statement events, all bytes in statement and database name, all sequences of events committed afterwards", "why_tests_cant": "all byte strings in all character sets; test suites write ASCII", "anchors": ["src/events/query_event.rs:30-58", "src/events/rows_query_event.rs:16-31", "src/binlog_client.rs:78-121"]}
{"id": "C100", "title": "A server cannot choose what the client says", "statement": "Whatever a server sends, the client writes nothing but the login dialogue (at most an SSL request, or login, answer to a switch, request for a key, encrypted password, computed from the options and the server's challenges) and then the commands of the documented set-up in order; no request of the server, such as for a local file, is ever answered otherwise.", "quantifier": "all servers, all packets, all options, any number of packets received", "why_tests_cant": "a hostile server can send anything at any step", "anchors": ["src/connect.rs:19-167", "src/configure.rs", "src/binlog_client.rs:30-60"]}
{"id": "C101", "title": "A copy kept by applying the events equals the server's tables", "statement": "A program that applies every event handed out (names of tables from the table maps; rows inserted, deleted, updated by their images) has, table by table, the rows the server had after the last event that arrived, whatever the tables, the reuse of table ids and the place where the connection breaks. Over any number of GTID connections a program that applies whole transactions always has the server's tables as after some transaction, and the saved set leaves exactly the later ones; the same with a MariaDB server and groups of row events, and for any number of binlog files, the last one cut anywhere. Premises: inserted rows logged with all columns, before images that identify the row up to equal rows.", "quantifier": "all databases, all logs, all breaks, any number of connections", "why_tests_cant": "end-to-end statement over all histories of a database", "anchors": ["src/events/event_parser.rs", "src/events/row_events/", "src/events/table_map_event.rs", "src/binlog_events.rs", "src/binlog_client.rs:30-102"]}
{"id": "C102", "title": "Errors say what is wrong, word for word", "statement": "Every error the library makes up itself has the documented text and names the offending value: unknown and unsupported column types, negative TIME values, checksum types by name and by code, GTIDs of another source, malformed intervals, unsupported authentication plugins (before anything is sent), a missing position, a missing GTID set or list (before anything is requested), files with another magic number. The white space allowed around the parts of a GTID text is exactly Unicode's.", "quantifier": "all values, positions in buffers, servers and options", "why_tests_cant": "tests look at the kind of error, not at each value it can name", "anchors": ["src/constants/column_type.rs:103-139", "src/constants/checksum_type.rs", "src/events/row_events/row_parser.rs:177-183", "src/providers/mysql/gtid/uuid_set.rs:29-35", "src/providers/mysql/gtid/gtid_set.rs:44-52", "src/connect.rs:158-167", "src/configure.rs:26-30", "src/binlog_reader.rs:20-33"]}
{"id": "C103", "title": "How the iteration over a connection ends", "statement": "When the server's log has been delivered and the connection has ended, iteration is over: next() returns None. (False: at a closed connection next() returns the same error at every further call; None comes exactly when a whole packet that begins with 254 arrives, and it is not final.) A loop that stops at the first error always ends, after at most one event for every 24 bytes received; one that ignores errors ends exactly if such a packet arrives.", "quantifier": "all byte sequences, all ways of cutting them, all numbers of calls", "why_tests_cant": "statement about unboundedly many calls on every connection", "anchors": ["src/binlog_events.rs:25-60", "src/packet_channel.rs:21-32"]}
{"id": "C104", "title": "Numbers, characters and hexadecimal digits mean what the standards say", "statement": "Multi-byte numbers are read and written in the byte order of the protocol (least significant byte first; decimals and the temporal types of version 2 most significant first), signed ones in two's complement; bytes are accepted as text exactly if they are UTF-8 by RFC 3629 and then give exactly those characters; GTID texts are sorted in the order of their bytes; UUIDs are read from two hexadecimal digits per byte in either case and printed in lower case.", "quantifier": "all byte sequences, all texts", "why_tests_cant": "other statements use these readings on both sides; only a proof over all bytes ties them to the standards", "anchors": ["src/extensions.rs", "src/providers/mysql/gtid/uuid.rs", "src/providers/mysql/gtid/gtid_set.rs"]}
{"id": "C105", "title": "Changing to another server neither loses nor repeats a transaction", "statement": "MySQL GTID mode, on the level of bytes: a client that moves from server to server, each with a log of its own, with any number of connections and failed attempts at each, has saved exactly the transactions it had at the start and those taken completely from any of the servers; none is taken twice, from the same server or from two. Once everything one server sent has been taken, its whole log stays in the set wherever the client goes. Between replicas that have got different first parts of one log, in any order, the transactions taken are in order the first of those missing and the set leaves exactly the others. MariaDB: for each domain the saved position is that of the last group passed at any of the servers; between replicas of one log the groups passed are in order the first of those not yet passed, and a later request leaves exactly the others (passed as in C82: with statements inside a group this is not yet the end of the group).", "quantifier": "all logs with distinct GTIDs and transaction numbers from 1 to 2^64-2 (MariaDB: numbers increasing in each domain), all sequences of servers, settings, connections, byte cuts", "why_tests_cant": "needs several servers with different logs and every point at which a client may leave one", "anchors": ["src/binlog_client.rs: commit, replicate", "src/commands/dump_binlog_gtid_command.rs", "src/providers/mysql/gtid/gtid_set.rs: add_gtid"]}
{"id": "C106", "title": "A refusal by the server is reported with the step it refused", "statement": "Whatever the server sends: when replicate() fails with an error from the server, the last packet received is an error packet, the error carries its code, text and SQL state, and its first words are those documented for the step that the packets exchanged before belong to: nothing sent yet, the login, the answer to a change of the method, the request for the key, the encrypted password, each statement with one answer (by its SQL), the registration, the first packet of a result set, a later one. No error ever speaks of a password sent in the clear.", "quantifier": "all servers, settings, options, builds; an OpenSSL whose own errors are not errors from the server", "why_tests_cant": "tests provoke one or two refusals; a copied message at one of fourteen places goes unnoticed", "anchors": ["src/extensions.rs:139-146", "src/connect.rs:19-156", "src/configure.rs:12-92", "src/providers/mariadb/mariadb_provider.rs:10-62"]}
{"id": "C107", "title": "Stopping the program and starting it from the stored text loses and repeats nothing", "statement": "GTID mode: a program keeps the saved position as text between its runs and begins each run with a new client made from that text. However often this happens, with whatever servers, connections and breaks in each run, the text can always be read; the set after the last run is the first one and exactly the transactions taken completely in any run; none is taken twice, in one run or in two; between replicas of one log the transactions taken are in order the first of those missing. Once a connection in any run to a server with the whole log has been taken to its end, all runs together have taken exactly the missing ones. MariaDB: the text of the GtidList reads back as the same list; whatever the servers, the position of each domain after the last run is that of the last group passed in any run, or else the first one, and no group (domain and number) is passed twice or lies at or before the first position; between replicas of one log, and after a connection taken to its end, as for MySQL (passed as in C82: with statements inside a group this is not yet the end of the group).", "quantifier": "all logs as in C105, all sequences of runs, servers, connections and byte cuts, all orders in which the hash map hands out its entries; server ids with 36 characters (as in every parsed set and every event)", "why_tests_cant": "needs several runs with breaks at every byte; tests of the text form look at single sets", "anchors": ["src/binlog_client.rs", "src/providers/mysql/gtid/gtid_set.rs: parse, Display", "src/providers/mariadb/gtid/gtid_list.rs: parse, Display", "src/binlog_options.rs: from_mysql_gtid, from_mariadb_gtid"]}
