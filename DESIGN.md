# Formal model of jiangzhe/mybin in Rocq (Coq 8.16.1)

## 1. Approach

`/repo` is a MySQL client / binlog library (crates `bytes-parser`, `mybin-core`,
`mybin-async`, `mybinlog`, `mybinmsg`).  Almost everything a user relies on is a
codec (bytes <-> values), a protocol state machine over a byte stream, or a pure
transformation (rows -> SQL / JSON).  The model is a set of small, total,
computable Gallina functions, one per Rust function, each citing its file and
lines.

* **Bytes** are `Coq.Init.Byte.byte`, so "for all byte strings" needs no
  well-formedness hypothesis.  Rust integers are `N` (unsigned) or `Z` (signed);
  every place where the Rust type wraps, truncates (`as`) or traps is explicit.
* **Outcomes**: `Ok v | Err e | Panic why | Loop`.  `Panic` is any Rust panic
  (checked-arithmetic overflow, index out of bounds, `unimplemented!`,
  `unreachable!`, `unwrap`, `split_to` beyond the end).  Arithmetic overflow is
  modelled as in a build with overflow checks (cargo's dev/test profile).  In a
  release build the same spot wraps silently: `Model/Release.v` has that version
  of every function with such a spot and of its callers, and C72 proves that the
  two builds agree unless a check stops the first.  So a theorem that excludes
  `Panic` holds for both profiles.  `Loop` is the out-of-fuel marker of the few loops
  that are not structurally bounded; theorems exclude it, or prove it for every
  fuel (non-termination).
* **Parsers** are state functions `bytes -> res A * bytes` (`&mut Bytes`): the
  remaining input is visible also when the parser fails.
* **Connections** are a pair of byte streams.  The read side is a schedule of
  `poll_read` answers (pending, some bytes, end of file), so theorems about
  receiving quantify over every chunking.
* **External code** (CRC-32, SHA-1, SHA-256, float formatting, chrono, regex,
  `BigDecimal` printing) is a universally quantified function parameter.

Layout of `/verif/rocq/theories`:

| directory | content |
|---|---|
| `Model/` | the model, no proofs |
| `Spec/`  | small independent specifications (wire formats, MySQL lexer, ...) |
| `Proofs/` | lemmas |
| `Properties/` | only the property theorems, each `exact lemma`, with `Print Assumptions` and a non-vacuity `Example` |
| `Conformance/` | the repository's own unit tests and its recorded binlog files replayed on the model (tests, not proofs) |

## 2. Trusted base

* Coq's kernel (including `vm_compute`).
* `Print Assumptions` of every property theorem (see the end of this file).
* The reading of the Rust code (no execution is possible here); `Conformance/`
  replays the expectations of the repository's unit tests on the model.
* Semantics of `bytes::Bytes`, `BytesMut`, `std` (`split_to`, `split_off`,
  `truncate`, `from_utf8`, integer parsing / printing), `bitflags`
  (`from_bits` = only known bits, `from_bits_truncate`), `futures` `read_exact` /
  `write_all` are modelled from their documentation.

## 3. Plan per property

| id | modelled | proof |
|---|---|---|
| C01 | `ReadBytesExt`/`WriteBytesExt` | positional value spec `le_value`/`be_value`/two's complement; round trips by arithmetic; refutations for `read_be_i24`, `read_be_i40` |
| C02 | same | case analysis; refutation `read_le_f64` |
| C03, C04 | `my.rs` | case analysis over the four widths; refutation at 251, full theorem with that single exception |
| C05 | `bitmap.rs` | induction over the bits |
| C06-C08 | `conn.rs` framing over poll schedules | induction over the packet split / the schedule |
| C09-C12 | `packet.rs`, `resp.rs`, `handshake.rs` | spec encoder then decode = identity |
| C13, C16-C20 | writers | spec decoder (server side) applied to the written bytes returns the arguments; for the login, the field list and the commands with delimited strings exactly when (Spec/Delimited.v), by inverting the spec decoder field by field |
| C14, C15 | `auth_plugin.rs` with abstract hash | XOR algebra for every hash function; refutation: nonce ignored |
| C21-C24 | `col.rs`, `row.rs` | round trips, induction over columns |
| C25, C26 | `resultset.rs` (core) | case analysis, association-list reasoning |
| C27, C28, C50 | `resultset.rs`, `query.rs`, `stmt.rs`, `conn.rs` (async) | spec: messages awaited on the stream, a server-side request decoder; induction over the server's packets |
| C29-C33 | `binlog/header.rs`, `mod.rs`, `parser.rs`, `fde.rs` | spec encoder; induction over the event list; abstract CRC |
| C34-C36 | `row.rs`, `rows_v2.rs`, `table_map.rs`, `col.rs` | spec encoder; induction over rows and columns; divergence theorem |
| C37 | `decimal.rs` | value-level spec; refutation for groups with leading zeros |
| C38, C39 | `gtid.rs` and the event bodies | spec encoder |
| C40-C42 | `stmt.rs`, `transform/` | MySQL literal lexer as spec; induction over columns/rows; exactness for any row image (Spec/Images.v) by reading the statement back token by token; exactness for stored values (Spec/Storable.v) by cases on the type |
| C43 | `mybin-async/binlog.rs` | induction over the message list |
| C44 | `mybinlog.rs` | state machine over event lists |
| C45, C46 | all decoders | compositional `no_panic` / `suffix` / `extend` lemmas for the parser combinators; refutations per panicking decoder |
| C47 | `time.rs` | spec packer; arithmetic; refutation for negative fractions |
| C48 | `time.rs` text | spec printer; refutations; layout of the accepted texts, inverted from splitting, trimming and number parsing |
| C49 | `conn.rs` handshake | composition of C06-C17 over a numbered stream |
| C51, C52 | all of `mybin-async`, `mybinlog.rs` | inductive set of client programs; one relation between two runs (one sees a prefix of the other's bytes) closed under sequencing, loops by induction on the bytes left |
| C53, C54 | all of `mybin-async` | for every call: an invariant "what was read is whole messages, and a panic is caused by one of them" closed under sequencing; loops by induction on the bytes left; decoder panics from C16-C19's exact characterisations |
| C55 | `transform/`, `mybinlog.rs` | small SQL engine as spec (lexer of C40, parser, executor over tables); every generated statement parses to the intended one; induction over the history of changes with the key as invariant |
| C56 | `stmt.rs`, `resultset.rs`, `col.rs` of both crates | server that re-encodes, in any admissible way, the values it decoded from the request (reading of C20); every cell of such a row is extracted as the argument (C22, C25); sessions of C27 and C28 around it |
| C57 | `conn.rs`, `handshake.rs`, `resultset.rs` | invariant of the login: the options stored are those sent; the rows of a server without DEPRECATE_EOF followed through the client |
| C58 | `mybinlog.rs`, `mybinmsg.rs`, `opts.rs`, `config.rs` | servers as spec (Spec/ToolSpec.v): greeting, login, answers; composition of C14/C15/C49 (login), C43/C44 (log) and C55 (replay); termination and independence of schedules by the methods of C53 and C54 |
| C59 | `conn.rs` `recv_msg`, `send_msg`, `binlog.rs` `next_event`, `resultset.rs` `next_row`, `bytes-parser/util.rs` | a dropped call is the call on the schedule up to the drop (Spec/Abandon.v): what it had read is gone; equality with the undisturbed call by the independence of schedules (C54); forged rows and events constructed from the wire specification |
| C60 | all calls of C54 | two runs, on the failing and on the working transport, related by an invariant preserved by every call (Proofs/FailureProofs.v); the dropped error of `exec_close` is a second relation, a close message not sent |
| C61 | `Model/Utf8.v` (the standard library's validation) and its users in `resultset.rs`, `table_map.rs`, `error.rs` | encoding of characters as spec (Spec/Unicode.v, RFC 3629); both directions by cases over the length of an encoding |
| C62 | `query.rs`, `stmt.rs`, `resultset.rs`, `conn.rs` | steps, results and their wires as spec (Spec/Scripts.v); composition of the conversations of C27, C28 and C50, induction over the steps |
| C63 | the two kinds of result set of C27 holding the same table, the extraction of C25; chrono's and bigdecimal's parsers are parameters, chrono's with a stated contract (Spec/BothWays.v) | case analysis over type, column and value; the texts and binary forms of a table determine the rows delivered |
| C64 | a log of files with positions, a server that sends it from the place asked for with made up events and heartbeats in between, a client that notes the place after each event (all in Spec/Resume.v) around the streams of C43 | invariant over the events sent: the place noted is where the rest starts; lost bytes by C52; induction over sessions |
| C65 | get_var/set_var/get_user_var/set_user_var on the connection model (Model/Session.v) against a server keeping variables, reading SQL with the lexer of Spec/SqlSpec.v (Spec/Variables.v) | per call: the requests it sends, the answers any such server may give and the result (invariant: statement numbers unused); induction over histories; the server is never stuck (C65_answered); set-then-read theorems by invariants over the calls between |
| C66 | server tables and logs given as SQL values and bytes (Spec/ServerLog.v), no decoder in the statement; the program of C58, the engine of C55 | values by cases on the type (with C36, C37, C40), and that no value is left out that comes through (Spec/StoredValues.v, C66_exact), rows and events by induction, histories translated to those of C55, runs from C58 |
| C67 | The server of C66 (tables, values, row images: Spec/ServerLog.v, Spec/StoredValues.v) and the documents (Spec/JsonLog.v), given the two events and the column definitions | Values: C66's decoding, then C42's conversion; rows: induction on the columns, then C35 and C42; exactness by cases on what a column can hold |
| C68 | The futures as state machines over any list of steps of a reader or writer (Model/NumFuture.v) | Induction on the steps, with the number of bytes offered so far |
| C69 | all decoders of messages, rows, event bodies and replica requests | a size per result type (Spec/Sizes.v), a bind rule that passes the unused budget on, induction for loops; a family of events for the quadratic case |
| C70 | the event readers of C31, C32 and C43 with CRC-32 itself (Spec/BinlogSpec.v) as the checksum; damage as flipped bits (Spec/Damage.v) | the register as a linear map on 32 bits: bursts by injectivity of a step; pairs by the order of x modulo the polynomial (2^32-1, from its prime factors, powers by repeated squaring of the matrix) |
| C71 | login, change of user and the tools (as for C49, C58) run twice with two passwords | relational: the two plugins stay alike through every step; replay by injectivity of XOR |
| C72 | Release.v: every function in which an overflow check or debug assertion can fire, and its callers up to the public functions and programs, without the checks | relational induction over both builds (agree or stopped), then by the same induction that no arithmetic or assertion panic is left; exact panic conditions for the decoders that lose all or most of theirs, and for stored values and row events (Spec/ReleasePanics.v, where what is read is said by the layouts of C79) and for the start of a log, checksums, table maps and LOAD events (Spec/ReleaseEventPanics.v) |
| C73 | the whole `ComStmtExecute` with its public fields and `single` (Model/Execute.v) | a server that remembers types per statement (Spec/ExecuteMany.v) reads any sequence of requests; induction over the sequence with the types sent so far as invariant |
| C74 | Everything of Model/Conn, Auth, Session, Stream as already modelled; applications as a deep embedding (Spec/Dialogue.v: api, app) run by the model | every call is shown to be listening (sends nothing, takes whole messages) or asking (one message, numbered from 0, then listening), closed under sequencing; induction over the application; authentication loops by induction with the plugin's password as invariant |
| C75 | the decoders of replies (Model/Packet.v, Col.v, Row.v, Stmt.v, Session.v) | equivalence of each decoder with a layout, a list of fields (Spec/Accepts.v); one lemma per kind of field, composed |
| C76 | the decoders of binlog data (Model/Event.v, EventBody.v, Rows.v) | equivalence of each decoder with a layout (Spec/AcceptsEvents.v), composed from the field lemmas of C75 |
| C77 | the decoders of column descriptions, table maps, binlog values, row images and row events, against layouts that say what bytes stand for what value (Spec/AcceptsRowEvents.v) | equivalence in both directions, composed decoder by decoder; a decimal's decoder also looks at what follows, so its layout does too; loops over rows by induction on the input, an empty row never ends |
| C78 | the session calls of Model/Session.v and Model/Stream.v, over the message layouts of C75 and C76 | composition lemmas for receiving, decoding and sequencing exact replies; induction over the arriving bytes for the loops |
| C79 | Model/Release.v: greeting, first event, events, files, login, stream, next event without overflow checks; layouts with lengths modulo 2^8 and 2^32 in Spec/ReleaseAccepts.v; table maps, values, row images and row events in Spec/ReleaseValues.v | takes_exactly composition as in C75-C77, reports/delivers composition as in C78; comparison with the layouts of a build with checks |

Properties that are false of the code are proved as `..._refuted` (a concrete
witness) next to the theorem with the exact exception as hypothesis.

## 4. What is modelled and what is not

`tools/coverage.py` lists the functions of `/repo` that no comment of the model cites; what is left are
trait declarations, `Deref`, trivial constructors and accessors.

| crate / files | modelled in | left out or simplified |
|---|---|---|
| `bytes-parser` `lib.rs`, `my.rs`, `error.rs`, `util.rs` | `Model/Base.v`, `Model/BytesParser.v`, `Model/LenEnc.v` | error texts (only their kind is kept); reference counting of `Bytes` |
| `mybin-core` `bitmap.rs`, `flag.rs`, `util.rs` | `Model/Bitmap.v`, `Model/Flags.v`, `Model/Extract.v` | - |
| `mybin-core` `packet.rs`, `resp.rs`, `handshake.rs`, `quit.rs` | `Model/Packet.v`, `Model/Auth.v`, `Model/Cmd.v` | error texts |
| `mybin-core` `cmd/*` | `Model/Cmd.v`, `Model/Stmt.v` | - |
| `mybin-core` `stmt.rs`, `col.rs`, `row.rs`, `resultset.rs` | `Model/Stmt.v`, `Model/Col.v`, `Model/Row.v`, `Model/Extract.v` | `BigDecimal` and floats are their texts and bit patterns; `chrono` types are their fields |
| `mybin-core` `time.rs`, `decimal.rs` | `Model/Time.v`, `Model/Decimal.v` | - |
| `mybin-core` `binlog/*` | `Model/Event.v`, `Model/EventBody.v`, `Model/Rows.v` | - |
| `mybin-core` `binlog/transform/*` | `Model/Transform.v`, `Model/Fmt.v` | float formatting is a parameter; JSON is the text `serde_json` writes |
| `mybin-async` `conn.rs`, `auth_plugin.rs`, `query.rs`, `stmt.rs`, `resultset.rs`, `binlog.rs`, `error.rs` | `Model/Conn.v`, `Model/Auth.v`, `Model/Session.v`, `Model/Stream.v` | `async` is the order of the polls on one connection; a dropped call is described in `Spec/Abandon.v` (C59) |
| `mybinlog` `mybinlog.rs`, `opts.rs` | `Model/MyBinlog.v`, `Model/Tools.v` | `structopt` parsing, `stderr`, resolving the address |
| `mybinmsg` `mybinmsg.rs`, `config.rs`, `cmd_opt.rs` | `Model/Tools.v` | reading the `toml` file; the sections `subscribe` and `notify` are parsed but used by no code |

Not modelled at all: TCP and TLS below `poll_read`/`poll_write`, logging, the regular expressions
themselves (a filter is a predicate that a partial function gives for its text), exhausted memory other than
`with_capacity` beyond `isize::MAX`, the random generator (its number is an argument).  `Model/Utf8.v` and `Model/Fmt.v` model
what is used of `std` (`from_utf8`, integer formatting); C61 ties the first to RFC 3629.

## 5. Assumptions

`Print Assumptions` follows every property theorem in `Properties/`.  For every one of them it prints
"Closed under the global context": no axiom at all, neither of ours nor of the standard library.  Hypotheses
such as `forall x, length (sha1 x) = 20` are premises of the theorems and are met by the definitions of
`Spec/Sha.v` (SHA-1, SHA-256) and `Spec/BinlogSpec.v` (CRC-32), which the examples use.

`Conformance/` is no proof: it evaluates the model on the literals of the repository's unit tests
(`UnitTests.v`) and on the binlog files stored in the repository (`Data.v`, `Binlogs.v`) and checks that the results are
those the tests expect.

`seeded/LOG.jsonl` records the wrong programs tried against the theorems (`tools/mutate.py` and
`tools/automut.py` generate and run them on a scratch copy).

## 6. Findings

Each is proved about the model by a theorem whose name ends in `_refuted`; the theorem for the property excludes
exactly this case.

* C01: the big endian 24-bit signed reader reads little endian, the big endian 40-bit signed reader does not sign-extend.
* C02: read_le_f64 reports the wrong shortage.
* C03: 251 is written as the NULL marker 0xfb.
* C04: strings of exactly 251 bytes are read back as NULL.
* C07: in builds with overflow checks, sending the packet numbered 255 panics.
* C09: an error packet answering the login has its SQL state glued to the message.
* C10: packets with status bit 15 set, and packets without an info string under session tracking, are rejected.
* C12: greetings announcing a seed shorter than 8 bytes panic.
* C13: 251-byte auth responses, NUL bytes in the user, database or plugin name, attributes with a string of 251 bytes, and logins without the secure-connection or lenenc-auth capability are misread by the server; exactly when is proved (C13_login_exact).
* C15: the server nonce is never used, so a server checking its nonce rejects the login.
* C16: COM_SET_OPTION sends the opposite option.
* C18: strings of 256 bytes and more are cut (register slave) or make the packet misread (table dump, change user), and so do NUL bytes and attribute strings of 251 bytes (change user); exactly when is proved (C18_*_exact).
* C20: a string, blob, bit or decimal parameter of exactly 251 bytes makes the request unreadable; a parameter built by the explicit timestamp constructor arrives without its microseconds; minus zero times arrive as zero; leap seconds and years beyond 65535 are outside the parameter range.
* C22: strings of exactly 251 bytes are read back as NULL with their bytes left in the input; a minus-zero time is read back as zero; the Timestamp variant is read back as a DateTime without its microseconds.
* C25: signedness is not checked (an unsigned target of a negative column gives value + 2^bits, a signed target of a large unsigned column gives value - 2^bits); a MEDIUMINT can only be read with the 24 bit targets; a boolean target maps every number but 1 to false; zero and other non-existing dates panic; the crate's own date-time type cannot be read from binary rows.
* C26: with duplicate names the last column wins.
* C27: a server error among text rows surfaces as a generic error without the server's code and message; among binary rows it is decoded as a row.
* C28: executing a SELECT: a prepared statement's row may be taken for OK leaving the rest unread, a query's rows are skipped and the call waits for a further message.
* C29: asking for the payload length panics when the total length is below 19.
* C31: announced lengths below 19, or with checksums below 23, panic instead of being rejected.
* C33: the format description's own post-header length (table entry for event 15) decides where the table ends; values below 57 panic.
* C34: a row image without any present column makes the decoder loop forever; an extra-data length below 2 panics; absent and NULL columns both decode to NULL and are told apart only by the present bitmap.
* C35: a table with a SET column makes the decoder panic, one with a JSON column is rejected, and the pre-5.6 TIME, DATETIME and TIMESTAMP types panic.
* C36: TIMESTAMP(1..6) values leave their fraction bytes unread so that the following columns are misread; negative TIME(1..4) values with a fraction (C47) and DECIMALs with a multiple of nine integer digits (C37) are decoded wrongly.
* C37: groups of digits are printed without zero padding, so 1.05 prints as 1.5 and exactly the values needing no padding print right; with an integer part of a multiple of nine digits 2^31 is added to its first group; DECIMAL(1,1), (3,3) and (5,5) to (8,8) panic.
* C38: of a server id listed twice only the last entry is kept; counts near 2^63 panic on allocation.
* C39: create-file and append-block data is cut at the first zero byte, or rejected if there is none; a query event whose updated-databases list overflowed (count 254) fails to decode its status variables.
* C40: backslashes in text are not escaped (literals that do not end, SQL injection), text with a quote is read as Latin-1, text that is not UTF-8 panics, BIT values of more than one byte have their bytes reversed or panic, the fraction of a DATETIME is lost, dates outside the calendar and geometry values panic.
* C41: row images that lack an earlier column pair values with the wrong columns (exactly when that is harmless is proved), tables without key columns give an empty WHERE, a NULL key is compared with =, backticks in names are not doubled.
* C42: row images that lack an earlier column pair values with the wrong columns; text that is not UTF-8, non-finite floats, dates outside the calendar, geometry and wide BIT values panic; BIT bytes are reversed; the fraction of a DATETIME is lost.
* C43: after the None that ends a non-blocking stream, further calls read on instead of yielding None; an ERR packet in the stream loses the server's code and text; without GTIDs the position is reduced modulo 2^32; a first rotate event without room for its checksum panics.
* C44: an id given to another table within a log still stands for the first one; updates of a table are printed only if a column is flagged both primary and unique, otherwise a note; row events of version 1 are ignored.
* C45: the greeting (secure connection announced with a length of authentication data below 8), a DOUBLE with 5 to 7 bytes left, binlog values (listed case by case: old DECIMAL, GEOMETRY, a DATETIME of zeros, BIT and BLOB metadata out of range, DECIMAL fractions that overflow, VARCHAR longer than its maximum), events announcing less than their header, format descriptions with bad post-header lengths, table maps with unsupported columns, row events with bad extra length, too many columns or such values, GTID sets with huge counts and LOAD events with 2^32 bytes of names panic; the theorems state for each decoder exactly on which messages (C45_Exact.v; Spec/Panics.v). A row event with no column present and bytes left never returns, and no other.
* C46: a binlog DECIMAL at the end of the input is read as zero.
* C47: a negative TIME with one to four fractional digits and a non-zero fraction decodes to too many microseconds.
* C48: the sign of a negative TIME under one hour is lost; non-zero fractions of 1, 2, 4 or 5 digits are read as that many microseconds; hours count modulo 2^32; "-9223372036854775808:0:0" panics in a build with checks.
* C49: an authentication switch request panics.
* C50: an error answer to ping is reported as success; the multi-statement option is requested inverted; an error answer to statistics is reported as bad UTF-8; changing user panics on extra authentication data without a preceding switch.
* C53: each of these messages does bring the client down with a panic instead of an error. For the basic calls it is stated exactly when (Spec/HostileExact.v): a statement, if an empty message comes before any OK or ERR; a query, if its first message is empty or NULL; rows of a prepared statement, if a row cut inside a DOUBLE follows sound ones; a stream, if an event with too small a length follows unknown ones; a change of user, if the first reply is further data; a login, if the greeting's seed is short or a request to use another method follows what the method lets pass (the last two in builds without overflow checks).
* C55: a row whose key holds a NULL is not found again and the table stays as it was; for a table without a key the deletions are not SQL; the command prints no updates for ordinary primary keys (C44).
* C56: the crate's own MyDateTime can be bound but never read back as itself; digits below the microsecond are dropped; strings of exactly 251 bytes are excluded (C20).
* C57: the client never looks at the options of the server, so a server that lacks DEPRECATE_EOF (before MySQL 5.7.5) still logs it in but no row of any result set can be read from it: the first call for a row fails although the rows are there, and mybinlog list fails.
* C58: a row event that says no column is present makes dml run for ever, and no other message of any server does; mybinmsg panics when its configuration names a socket file, and can only end by failing.
* C59: a call dropped in the middle of a message loses the bytes read so far; the rest of the message is taken for messages, so that a
  row or an event the server never sent can be reported (for every row and event there is a content that does this). A command
  dropped while it is sent makes the server take the next command for its rest.
* C60: `exec_close`, `set_var` and `set_user_var` report success although the message that closes the statement could not be sent.
* C62: a statement answered by several results, and a result set not read to its end, put the connection out of step: later statements get the results of earlier ones, and a refused statement can be reported as executed.
* C63: numbers of the upper half of an UNSIGNED column asked for as a wider signed type are right in text rows and negative in binary rows; integer types narrower than the column and MyDateTime are read from text rows only.
* C64: a stream does not follow a later format description: when checksums are switched off on the server the events of the next file lose their last four bytes (or panic, or are refused), when switched on they gain four.
* C65: `get_var` sends the name as a LIKE pattern: with `_` in it the first listed variable with any character there is reported, e.g. `validate_password.length` for `validate_password_length` (C65_pattern_refuted); `get_user_var` sends the name as SQL: reading `n := 7` sets `n` (C65_assign_refuted)
* C66: C66_unsupported_refuted: one table map with a SET or JSON column ends mybinlog dml (panic or error), even if the filters leave that table out.
* C66: C66_altered_refuted: the columns of a table are asked for when the log is read. If a column has been moved since, the script is accepted and puts values into the wrong columns; if one has been dropped, its values are lost; if one has been added, the lines are no statements.
* C67: the values without a right JSON value are those without a right SQL literal in C66 but for texts, which all come through, and floating-point numbers that are not finite (C67_exact gives the condition exactly).
* C68: a writer that takes only a part of a number is given its beginning again: success is reported with wrong bytes sent, or the number is sent for ever.
* C69: a rows event of n bytes can be decoded into a number of cells quadratic in n (C69_cells_refuted): absent columns cost a bit once but a NULL cell of 40 bytes in every row.
* C70: a change of six bits in the length field of an event can turn it into another event that passes validation (C70_length_refuted).
* C71: the caching_sha2_password login does not depend on the nonce, so one recorded login serves for all (`C71_sha2_replay_refuted`).
* C72: a release build goes on with wrapped numbers where a checked build panics: short checksummed events keep their checksum bytes, a zero DATETIME becomes the year 10082, an ill-formed DECIMAL gets other digits; comparing the checksum of an event announcing less than four bytes panics in both.
* C73: an argument whose type differs from the one sent last, sent without its type, is read as another value (4294967295 as -1); NULL is sent with type NULL, and no value can follow it without its type.
* C77: the number of columns of a row event is taken modulo 2^32; a DECIMAL at the end of the input is read as zero instead of being refused; the sign of a DATETIME is dropped; a CHAR longer than declared is taken
* C78: an ERR packet that arrives among rows or events is not reported as the server's error (it is read as a row, or answered with a packet error), and an ERR packet with a text that is not UTF-8 is reported as a decoding error.
* C79: a release build takes a greeting that announces fewer than 8 bytes of random data for one with 248 more, starts a stream whose table of lengths is 256 longer than its entry says, and delivers the bytes of an event too short for its checksum as its data; a build with checks panics on all three. It takes a DATETIME of zero bytes only for the year 10082, a bit field of 255 bytes and some bits for an empty one, and texts longer than declared; a build with checks panics
