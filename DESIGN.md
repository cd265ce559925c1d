# Formal model of mysql_cdc: design

Target: `/repo` (rusuly/mysql_cdc, Rust). Prover: Coq 8.16.1, standard library only.
Nothing in `/repo` is built or run; the model is written from the source text.

## 1. Trusted base

* The Coq kernel (and `coqchk`, which re-checks every compiled file). `vm_compute` is used for
  concrete examples and refutation witnesses only.
* `Print Assumptions` is printed after every claimed theorem (`theories/Props/*.v`).
  See section 6 for what it lists.
* The reading of the Rust source: every definition under `theories/Model` cites the file and lines it
  models and says where it simplifies. Rust's semantics is modelled by the conventions in section 2.
* The specifications under `theories/Spec` (what a server writes / what a GTID set means), which are written
  without using the model's helpers.

## 2. Modelling conventions

| Rust | model |
|---|---|
| `u8` buffers, `Vec<u8>`, `&[u8]` | `list byte` (`Coq.Init.Byte.byte`), so every theorem ranges over real byte strings |
| `u16/u32/u64/usize` | `N`; arithmetic that can overflow goes through explicit operations that panic in `Debug` and wrap in `Release`; theorems quantify over the build mode. `usize` is 64 bits |
| `String`, `&str` | `list N` of Unicode scalar values; `from_utf8`/`as_bytes` are an executable UTF-8 decoder/encoder |
| `Result<A, Error>` and panics | `res A := Ok a \| Err e \| Panic \| Diverge`; `Diverge` = loop that never ends (fuel exhausted, with the fuel proved sufficient otherwise) |
| `Cursor<&[u8]>` | record of the buffer and a position; parsers are state functions on it |
| `HashMap` | association list with unique keys; where the code iterates, the model takes an arbitrary permutation |
| `TcpStream` | incoming: list of portions of bytes and read time-outs, then end of file; outgoing: log of packets written. Short and failed writes are an explicit oracle for `write_packet` (C55, C56); in the session model `Session.v` the operating system takes every packet as a whole, in `SessionIo.v` its answers are arbitrary (C93) |
| `File` | the bytes of a finished file (`Model/Reader`), or the answers to read(2) one after the other (`Model/FileIo`, C94) |
| `f32/f64` | their bit patterns |
| SHA-1 / SHA-256 | executable Gallina definitions for C52/C53; in the session model the hash functions and RSA are parameters (fields of a record, never axioms), with the length of digests and the decryption law as hypotheses of the theorems that need them |
| allocation | `vec![0; n]` panics when `n > isize::MAX`; out-of-memory aborts are not modelled |

Modelled, function by function (each definition cites its lines): all of `binlog_client.rs`, `binlog_events.rs`,
`binlog_options.rs`, `binlog_reader.rs`, `configure.rs`, `connect.rs`, `extensions.rs`, `packet_channel.rs`, `replica_options.rs`,
`starting_strategy.rs`, `commands/*`, `constants/*`, `events/*`, `metadata/*`, `providers/*` and `responses/*`.

Not modelled: how the operating system resolves names and opens a TCP connection (it answers an address in any way,
`Model/Open.v`), TLS (after the SSL request the code panics with `unimplemented!`, and so does the model), real time, memory exhaustion, `Drop`, threads (the library has none), `Debug` formatting of events,
`errors.rs` beyond the error's variant and the texts the code itself puts in it,
`examples/` (their loop is `commit_all`). The crate's 27 unit tests hold of the model (`Props/UnitTests.v`, by computation).

## 3. Layout

* `theories/Base/*` – bytes, numbers, UTF-8, parser monad and its reasoning rules.
* `theories/Model/*` – the code, function by function (no proofs).
* `theories/Spec/*` – independent specifications: server-side encoders, meaning of GTID sets, histories.
* `theories/Proofs/*` – lemmas.
* `theories/Props/*` – the claimed theorems, each with `Print Assumptions` and non-vacuity `Example`s.

## 4. Per property: what is modelled and how it is proved

| id | modelled code | statement / method |
|---|---|---|
| C01 | UuidSet/GtidSet::add_gtid | denotation of a set = predicate on (uuid,id); induction over the history; uint overflow at 2^64-1 shown as a counterexample |
| C02, C03 | same | invariant `canonical` (sorted, gap of at least one id), preserved; result iff not a member |
| C04 | Display | canonical form unique for a denotation; sort of printed parts is permutation independent |
| C05, C06 | parse, Display | printer/parser inverse; C06 for texts whose UUIDs are distinct; refuted for repeated UUIDs and reversed intervals; exact with repeats: the last part of each spelling wins (C06_last_part_wins); every accepted text: `part_says`, `joined` (GtidExactSpec.v) |
| C07 | parse (both dialects) | false: witnesses of panics; exact characterisation by an independent grammar of the texts (GtidTextSpec.v): panics iff, accepted iff, never endless |
| C08, C09 | uuid.rs | bijection; C09 false (upper-case spelling), partial for canonical spellings; exact: holds iff no id is spelled in two ways (C09_one_entry_iff) |
| C10, C11 | MariaDB GtidList | refinement to a finite map; printer/parser inverse; every accepted text: `maria_says` |
| C12 | BinlogClient::commit | grammar of transactions as an inductive datatype, flattened to events; theorem for every prefix, by induction with a state relation; `C12_any_stream`: the saved GTIDs for event sequences of any shape, against `StreamSpec` (last GTID before an event that ends something outside a block) |
| C13 | same | row-based groups proved; false for groups that contain statements before the end (witness); `C13_any_stream`: exact for event sequences of any shape |
| C14 | same + abstract server | sessions folded; induction over sessions using C12 |
| C15 | update_binlog_position | fold characterised by the last coordinate-carrying event |
| C16, C17, C18 | same + log layout spec | induction over the log; C17 false with several row events per table map (witness), partial for one row event per map, which is also necessary (`C17_safe_iff`: at every crash point the table maps stay inside iff each row event directly follows its maps); C18 false above 2^32, exact: modulo 2^32 |
| C19, C20 | commit | frame lemmas; C20 invariants of reachable sets, and which event panics in debug builds exactly (`C20_debug_panics_iff`) |
| C21–C24 | BinlogReader | file = magic + frames; induction over frames, with arbitrary buffer leftovers; C23 false (witness), with the exact characterisation. Files of any bytes: `swept` (Spec/FileSpec), total and equal to the iteration (`FileProofs.iterates_iff`) |
| C25, C26 | parse_event | payload truncation; C26 false (the checksum is never looked at) |
| C27 | FormatDescriptionEvent | encoder/decoder; debug-build panic for some lengths as witness, exactly those from 256 to 274 (`C27_debug_exact`) |
| C28–C30 | decoders | server encoders in Spec, decode∘encode = id for all values; GTID lists with a flag bit set are rejected, for all lists (`C30_list_flags_exact`) |
| C31–C33 | parse_event | all payloads; C33 false (witnesses); exact instead: `Spec/StopSpec.v` describes by their bytes the events that make the decoder panic (down to the bytes of each cell), and after every history decoding panics on these and on no others (`C33_any_history_panics_iff`), returns on all others that do not hang (`C33_returns_iff`) |
| C34–C37 | extensions.rs | encode/decode for all values; C37's second half false, with the exact outcome for every unterminated string |
| C38–C42 | row_events/* | encoders per column type, decode∘encode = id; of all years only 0000 is misread (`C40_year_exact`) |
| C43 | TableMapEvent, TableMetadata | encoder/decoder, induction over columns and metadata fields |
| C44–C47 | row_parser.rs | induction over columns and rows; images without any column lose all rows (`C44_no_column_exact`); C47 false for empty presence bitmaps and for extra data lengths below 2 (witnesses); endless decoding is characterised exactly (`C47_hangs_iff`), and otherwise the payload is cut into fields and rows, each read from its own bytes (`C47_each_byte_once`) |
| C48–C51 | commands/* | server-side parser in Spec, parse∘serialize = id; C50 false on reconnects (witness), with the exact contents of the request after every history |
| C52–C54 | extensions.rs, connect.rs | xor algebra; C53 false with SHA-256 (witness), stated for arbitrary hash too |
| C55–C58 | packet_channel.rs, binlog_events.rs | framing induction; C56 and C58 false with witness; what a time-out (or another error of read(2)) inside a packet does is exact (`C58_timeout_exact`). Reads that are interrupted are portions without bytes (read_exact repeats them); writes: `written` (ChannelSpec) says for all answers of the operating system, EINTR included, what write_packet returns and what has been taken (`C56_exact`) |
| C59, C60 | responses/* | encoder/decoder; C59 false for column definitions (`C59_every_command_refuted`) |
| C61–C65 | replicate, configure, providers | session interpreter over response lists; case analysis/induction on responses; C65 false with NULL cells, with the exact outcome |
| C62 (after any outcome) | replicate, configure.rs | `TalkSpec.left_client`; the calculus of C72 gives the packets read by each part, prefix-freeness that no other split of them exists, `kp_rest` that nothing after the status changes the client |
| C66 | composition of connection, stream, decoders, commit | server writing packets as an inductive relation with its own state (checksums, described tables); simulation between that state and the decoder's; every byte cut; combined with C12, C13, C61. Any stream (`log_sent`): rows of tables described before the stream began give the documented error at their place, rows without columns come without their rows; everything is handed out as sent exactly if neither occurs (C66_whole_iff). Missing: events of 16 MB and more (false, C70) |
| C67 | commit | false (witness): XA START counts as an auto-committed statement; exact for every prefix |
| C68 | UserVarEvent | false for binary values (witness); exact: text iff UTF-8, error otherwise |
| C69 | AuthenticateCommand | false for empty passwords (witness), otherwise C52/C53 |
| C70 | packet_channel.rs | false (witness); bodies below the limit by C55/C57; above it the first packet alone is decoded |
| C71 | connect.rs, configure.rs | false after fast authentication (witness); direct logins proved from the session log; after fast authentication the shifted conversation is followed to the first result set |
| C72 | replicate | false (twelve witnesses); instead exact: a specification of the received packets (`TalkSpec.talk_stops`), a calculus of acts with the packets that lead to a result and those that lead to a panic (`TalkProofs.tr`), one lemma per function (`TalkLoginProofs`, `TalkSetupProofs`); empty packets by an invariant on the log (`EmptyProofs.emp`) |
| C73 | set_master_heartbeat | false below 1 ms (witness), proved from 1 ms on; exact rounding |
| C74 | replicate + stream + commit, repeatedly | byte-level connections refine C14's abstract ones: the request is read back by the server-side parser (C49, C61), the stream by C66 |
| C75 | database_provider.rs, connect | substring search = existence of a split; session level from C60's handshake |
| C76 | commit | one commit by cases on the event, adding a present GTID is the identity on canonical sets; streams via C12's refinement to `add_all` |
| C77 | commit | relational spec (`CheckpointSpec.recorded`) that knows neither the client's fields nor transactions; induction over the events |
| C78 | binlog_reader.rs + parser | `file_written` (server side) decoded event by event with the invariant of C66 (`mirrors`), then C22 and C66; `file_stored` (`Spec/AnyFileSpec`) for any file, with the exact condition for reading back as written |
| C79 | all parsers | weight of a decoded value (`SizeSpec`, no reference to the parsers) is at most the bytes consumed; compositional predicate `pays w p` over the parser combinators; number of cells refuted, bounded by twice the square of the bytes (`C79_cells_square`) |
| C80 | gtid.rs, gtid_set.rs | one-transaction sets are writable, so C05's round trip applies; injectivity from determinism of the parser |
| C81 | binlog_options.rs constructors, replicate() | C61's plan is followed to its end on success, so the last packet sent meets its last entry; options unchanged by C62 |
| C82 | mariadb_provider.rs, gtid_list.rs, commit, BinlogEvents | the list read by the server from the statement in C61's plan is the saved one (text round trip); C66 for the bytes, C13 for the commits; positions moved to the last group done leave the rest of an increasing log; induction over connections. Streams as `log_sent` of C66. For all groups (C82_delivery): the groups the position moves past are the first of those after the saved position and it leaves exactly the others; C82_passed: these are the groups taken completely and at most one more, the one cut after a statement of it that no BEGIN precedes; C82_not_sent_again for all groups; C82_sent_again_iff. Missing: for groups with statements inside "taken completely" is false (C82_statement_in_group_refuted, in bytes) |
| C83 | connect.rs, ssl_mode.rs | the decision about SSL precedes every packet sent; greeting flags from C60 |
| C84 | replicate(), dump_binlog_command.rs, commit, BinlogEvents | the server starts at what the last packet of C61's plan says, which is what is saved; C66 for the bytes, C16 for the coordinates after each connection; induction over connections. Streams as `log_sent` of C66, so also with row events whose table map lies before the saved position: these are never taken, and a client standing before one stays there on every connection (C84_stuck). Missing: events of 16 MB and more (C70); that the whole log is ever delivered is false (C84_second_row_event_refuted) |
| C85 | everything with checked arithmetic | relation `agree` (debug panics, or both are equal) closed under the combinators of parsers, results and conversations; for replicate() also that the log of the panicking debug build is a prefix |
| C86 | packet_channel.rs, binlog_events.rs, replicate() | `arrivals`: the stream with its grouping forgotten; reading is a function of it, relation `asim` closed under the combinators; different fuels for loops over packets are both sufficient |
| C87 | binlog_reader.rs, binlog_events.rs | one call each on the same event, induction over the events |
| C88 | connect.rs, authenticate_command.rs, auth_plugin_switch_command.rs | non-interference: relation `alike` on pairs of runs with two passwords, closed under the combinators |
| C89 | event_parser.rs, row_parser.rs | the lookup uses the id in the first six bytes; the state after each event case by case |
| C90 | event_parser.rs, table_metadata.rs | parsers whose result does not depend on bytes behind the place they stop (`stable`), closed under the combinators; table maps: false (witness, exact form) |
| C91 | event_type.rs, event_parser.rs, commit | false (two witnesses); the type codes that come out with rows, and what happens to the others |
| C92 | replicate and everything it calls | `TalkSpec.talk_ok`, same calculus as C72; prefix-freeness shows that no accepted sequence is part of a longer one |
| C93 | write_packet, replicate and everything it calls | `Model/SessionIo`: the functions that write, again, over an operating system's answers; simulation by `Model/Session` (`SockProofs.sim`, closed under bind): equal runs, or cut at a refused write, with what was taken as in `C56_exact`; false for short writes of a body, witness |
| C94 | binlog_reader.rs again | `Model/FileIo`: the same functions over the operating system's answers to read(2) (short, interrupted, failing reads, the end of a growing file); equal to `Model/Reader` when nothing ends or fails in between (`fsim`), induction over events, ends and errors otherwise; false inside an event, witness |
| C95 | replicate(), commit, BinlogEvents | groups = a GTID and any events up to the next one, every BEGIN followed by an end; `settles`: the part taken holds an end or a statement that no BEGIN precedes; saved set = old set and the settled groups (C77's step lemma, induction over groups and connections, C66 for the bytes, C61 for the request). False: XA START settles, a compressed TRANSACTION_PAYLOAD never does |
| C96 | packet_channel.rs:13-19, BinlogClient::new, ReplicaOptions::default | `Model/Open.v`: the network is any function from addresses to answers; address = host, last colon, port in decimal; induction over attempts |
| C97 | read_packet, BinlogEvents, replicate() | two streams with the same bodies and any numbers, induction over calls (C86 behind the packets); `talk_ok` of C92 does not look at numbers; loss and repetition from `streamed`. False as stated |
| C98 | EventParser::table_map | keys of the map = old keys and ids of decoded table maps, induction over histories; false as stated: one table, any number of ids |
| C99 | query_event.rs, rows_query_event.rs, commit | statement events with raw bytes; UTF-8 decidable by the sound and complete decoder of C03, three outcomes; `recorded` of C77 for a GTID nothing completes. False as stated |
| C100 | connect.rs, replicate() | `logs`: what a function reads and writes, closed under the steps, for any server; the login dialogue read by the server-side parser of C51, the commands by C61 |
| C101 | the whole way from the log to a program's copy | `Spec/CopySpec`: tables as bags of rows changed by the server (`works`, `executes`), a small program that applies events; invariant: equal up to order, names as described; bytes by C66, connections by C74 and C82, files by C78 |
| C102 | the errors made with Error::String | each function on all inputs that lead to the error; texts as literals, numbers by `spells` (GtidTextSpec); set-up functions on any connection that sends the packets in question |
| C103 | `stream_next` called again and again | a read that succeeds has taken exactly a packet's bytes, one that fails on a connection without errors has emptied it; `calls` (TransportSpec) by induction on the number of calls, loops by the number of bytes left |
| C104 | Base: byte orders, two's complement, UTF-8, order of texts, hexadecimal | `Spec/StandardSpec` from the standards (place values, table of RFC 3629, lexicographic order of bytes); equivalences by induction, characters by cases on the number of bytes |
| C105 | commit, replicate(), dump_binlog_gtid_command.rs | `roams` (`Spec/FailoverSpec`): stays at servers with logs of their own, each stay as `contacts` of C74; what one stay does to the set by C14, then induction over the stays; for replicas the part of the log a server has not got stays missing; `mroams` for MariaDB with C82 and the exact list each stay leaves |
| C106 | check_error_packet and its fourteen callers in connect(), configure.rs, mariadb_provider.rs | `refused_step` (`Spec/StepSpec`): the packets exchanged before a refusal and the words for it, the statements as the server reads them; a Hoare logic over the log of `replicate`, with parsers and commands shown to make no server errors of their own |
| C107 | BinlogClient::new, from_mysql_gtid, from_mariadb_gtid, GtidSet and GtidList parse and Display, with all of C105 | `lives` (`Spec/RestartSpec`): runs as `roams` of C105 with text and a new client between them; ids keep their 36 characters through every connection, so C05 applies to each stored text; then induction over the runs; `C107_everything` and its MariaDB form: when one connection to a server with the whole log is taken to its end, the runs together have taken exactly what was missing (that such a connection comes about is assumed); MariaDB at any servers: the groups passed are beyond the first position and increase in each domain, kept from stay to stay and over each restart |

Properties that turn out false of the faithful model get two theorems: `…_refuted` (an explicit witness, checked by
computation) and `…_partial` (the strongest true part), and are marked `partial` in `MANIFEST.json`.

## 5. Mutation testing

`seeded/LOG.jsonl` records edits made to scratch copies of the model, the claim each breaks, the theorems that failed,
and the theorems tightened afterwards.

## 6. Assumptions listed by Print Assumptions

Every theorem named in `MANIFEST.json` (and every other theorem under `theories/Props`) prints
"Closed under the global context": no axiom, neither of the standard library nor of this development.
Hypotheses about the environment (digest lengths, RSA decryption, the iteration order being a permutation) are
premises of the theorems that use them.
`coqchk` lists seven `Coq.ssr.ssrunder.Under_rel.*` constants; they are fields of a module type in the standard library
that `Coq.Lists.List` loads, and no theorem here depends on them.
