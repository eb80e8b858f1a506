{"id": "C01", "title": "Fixed-width integer codecs round-trip", "statement": "For every width and byte order for which the library offers a writer, writing an in-range integer appends exactly the width's bytes and reading those bytes back yields the same integer and leaves whatever follows untouched. Reading k bytes yields the positional (little/big endian, two's complement when signed) value of exactly those bytes. Exceptions (proved as findings): the big endian 24-bit signed reader reads little endian, the big endian 40-bit signed reader does not sign-extend.", "quantifier": "all integers in the type's range, all trailing bytes, all widths u8..u128, i8..i128 incl. 24/40/48 bit", "why_tests_cant": "2^128 values per width; boundary sign-extension bugs (i24, i40, i48) sit in a thin slice of the domain", "anchors": ["bytes-parser/src/lib.rs:ReadBytesExt", "bytes-parser/src/lib.rs:WriteBytesExt", "bytes-parser/src/lib.rs:read_be_i24", "bytes-parser/src/lib.rs:read_be_i40"]}
{"id": "C02", "title": "Short reads fail cleanly", "statement": "Reading a fixed-width value or a counted slice from fewer bytes than needed returns InputIncomplete carrying exactly the number of missing bytes, consumes nothing and never panics. Exceptions (proved as findings): read_le_f64 reports the wrong shortage.", "quantifier": "all readers, all inputs shorter than the width", "why_tests_cant": "needs every (reader, remaining length) pair; read_le_f64 only fails for 5..7 remaining bytes", "anchors": ["bytes-parser/src/lib.rs:read_len", "bytes-parser/src/lib.rs:read_le_f64", "bytes-parser/src/lib.rs:read_until"]}
{"id": "C03", "title": "Length-encoded integers round-trip", "statement": "For every u64, encoding it as a length-encoded integer and decoding the result yields the same integer and consumes exactly the encoded bytes; the encoding is the shortest legal MySQL one. Exceptions (proved as findings): 251 is written as the NULL marker 0xfb.", "quantifier": "all u64 values and all trailing bytes", "why_tests_cant": "one single value (251) out of 2^64 is wrong", "anchors": ["bytes-parser/src/my.rs:LenEncInt::read_from", "bytes-parser/src/my.rs:LenEncInt::write_to", "bytes-parser/src/my.rs:From<u64> for LenEncInt"]}
{"id": "C04", "title": "Length-encoded strings round-trip", "statement": "For every byte string, writing it as a length-encoded string and reading it back yields the same string and leaves the following bytes untouched; a string is never read back as SQL NULL. Exceptions (proved as findings): strings of exactly 251 bytes are read back as NULL.", "quantifier": "all byte strings of any length, all trailing bytes", "why_tests_cant": "only strings of exactly 251 bytes fail", "anchors": ["bytes-parser/src/my.rs:LenEncStr::read_from", "bytes-parser/src/my.rs:LenEncStr::write_to"]}
{"id": "C05", "title": "Bitmaps agree", "statement": "Building a bitmap from a boolean sequence at a given bit offset and iterating it back from that offset yields the same sequence followed only by false padding; random access, marking and iteration agree on every bit, and marking changes no other bit.", "quantifier": "all boolean sequences, all offsets, all positions", "why_tests_cant": "unbounded lengths and offsets; off-by-one at multiples of 8", "anchors": ["mybin-core/src/bitmap.rs:index", "mybin-core/src/bitmap.rs:mark", "mybin-core/src/bitmap.rs:to_iter", "mybin-core/src/bitmap.rs:from_iter"]}
{"id": "C06", "title": "Message framing round-trips", "statement": "Whatever payload a client sends as one message, the bytes put on the wire are a sequence of MySQL packets from which the library's own receive operation reconstructs exactly that payload, leaving the rest of the stream for the next receive. A payload whose length is a multiple of 2^24-1 is terminated by an empty packet.", "quantifier": "all payloads of any length, all following stream content, every way the transport splits the byte stream into chunks", "why_tests_cant": "payloads of 16 MiB and more and every chunking of the stream cannot be enumerated", "anchors": ["mybin-async/src/conn.rs:send_msg", "mybin-async/src/conn.rs:send_packet", "mybin-async/src/conn.rs:recv_msg"]}
{"id": "C07", "title": "Packet sequence numbers", "statement": "Packets of one message carry consecutive sequence numbers modulo 256 starting at 0 for a command (or at the number following the last received packet otherwise), and after receiving a message the next number to send is one more (mod 256) than that of the last packet received. Exceptions (proved as findings): in builds with overflow checks, sending the packet numbered 255 panics.", "quantifier": "all message lengths, all starting sequence numbers", "why_tests_cant": "wrap-around happens only after 256 packets of 16 MiB or from a server chosen start value", "anchors": ["mybin-async/src/conn.rs:send_packet", "mybin-async/src/conn.rs:recv_msg", "mybin-async/src/conn.rs:reset_pkt_nr"]}
{"id": "C08", "title": "Receiving never over-reads or hangs on to data", "statement": "Receiving a message consumes exactly the bytes of its packets; two messages sent back to back are received as the same two messages; a stream that ends inside a packet yields an error and never a shortened message.", "quantifier": "all message sequences, all truncation points, all chunkings", "why_tests_cant": "all truncation points of all streams", "anchors": ["mybin-async/src/conn.rs:recv_msg"]}
{"id": "C09", "title": "ERR packets decode", "statement": "Every error packet a MySQL server may send (any code, any sql state, any message) is decoded to exactly its code, state and message under the negotiated capabilities, and surfaces to the caller as an SQL error with those fields when they are valid UTF-8. Exceptions (proved as findings): an error packet answering the login has its SQL state glued to the message.", "quantifier": "all codes, states, messages, capability sets", "why_tests_cant": "field layout depends on capability bits; arbitrary message bytes", "anchors": ["mybin-core/src/packet.rs:ErrPacket", "mybin-async/src/error.rs:From<ErrPacket>"]}
{"id": "C10", "title": "OK packets decode", "statement": "Every OK packet a server sends under the negotiated capabilities (any affected rows, insert id, status, warnings, info, session state) is decoded to exactly these fields. Exceptions (proved as findings): packets with status bit 15 set, and packets without an info string under session tracking, are rejected.", "quantifier": "all u64 counters, status words, infos, capability sets", "why_tests_cant": "layout depends on four capability/status bits and on length-encoded widths", "anchors": ["mybin-core/src/packet.rs:OkPacket"]}
{"id": "C11", "title": "EOF packets decode and responses are classified by first byte", "statement": "EOF packets decode to their warnings and status; a command response is reported as success exactly when its first byte is the OK header, as server error exactly when it is the ERR header, and otherwise as a protocol error.", "quantifier": "all byte strings, all capability sets", "why_tests_cant": "every first byte times every continuation", "anchors": ["mybin-core/src/packet.rs:EofPacket", "mybin-core/src/resp.rs:ComResponse", "mybin-core/src/packet.rs:HandshakeMessage"]}
{"id": "C12", "title": "Initial handshake decodes", "statement": "Every protocol-10 greeting a server may send is decoded to the version, connection id, complete auth seed, capability bits, charset, status and plugin name it carries. Exceptions (proved as findings): greetings announcing a seed shorter than 8 bytes panic.", "quantifier": "all versions, ids, seeds of any announced length, capability words", "why_tests_cant": "the seed's split and the announced length byte interact (lengths below 8 panic)", "anchors": ["mybin-core/src/handshake.rs:InitialHandshake"]}
{"id": "C13", "title": "Handshake response is what the server expects", "statement": "A server decoding the login packet according to the capability bits it contains recovers exactly the user name, auth response, database, plugin name and attributes supplied by the caller. Exceptions (proved as findings): 251-byte auth responses, NUL bytes in the user name, and logins without the secure-connection or lenenc-auth capability are misread by the server.", "quantifier": "all user names, auth data, databases, attribute lists and capability sets", "why_tests_cant": "string lengths at encoding boundaries and capability combinations", "anchors": ["mybin-core/src/handshake.rs:HandshakeClientResponse41", "mybin-core/src/handshake.rs:ConnectAttr"]}
{"id": "C14", "title": "mysql_native_password authenticates", "statement": "For every password and seed, a server that stores only SHA1(SHA1(password)) accepts the generated response; the empty password produces an empty response.", "quantifier": "all passwords, all seeds, any 20-byte digest function", "why_tests_cant": "cryptographic hash values cannot be enumerated; the algebra must hold for every digest", "anchors": ["mybin-async/src/auth_plugin.rs:scramble411", "mybin-async/src/auth_plugin.rs:MysqlNativePassword", "mybin-async/src/conn.rs:gen_init_auth_resp"]}
{"id": "C15", "title": "caching_sha2_password authenticates", "statement": "For every password and server nonce the generated response is accepted by a server that stores SHA256(SHA256(password)) and verifies against its nonce; the multi-step exchange ends successfully on fast-auth success. Exceptions (proved as findings): the server nonce is never used, so a server checking its nonce rejects the login.", "quantifier": "all passwords, nonces, server replies, any 32-byte digest function", "why_tests_cant": "the nonce is silently dropped; a fixed-nonce unit test cannot see it", "anchors": ["mybin-async/src/auth_plugin.rs:CachingSha2Password", "mybin-async/src/auth_plugin.rs:scramble_caching_sha2"]}
{"id": "C16", "title": "Simple commands serialise to their wire format", "statement": "Every text or fixed-layout command (query, init db, create/drop db, field list, refresh, process kill, set option, statement prepare/close/reset/fetch, statistics, process info, debug, ping, reset connection, quit) is serialised as its command byte followed by exactly the encoded arguments, so that a server decoder recovers the arguments. Exceptions (proved as findings): COM_SET_OPTION sends the opposite option.", "quantifier": "all argument values and strings", "why_tests_cant": "unbounded strings", "anchors": ["mybin-core/src/cmd/", "mybin-core/src/lib.rs:Command", "mybin-core/src/quit.rs:ComQuit"]}
{"id": "C17", "title": "Command codes are a bijection with the protocol's codes", "statement": "Converting a command to its byte and back is the identity; a byte outside the known set is rejected; no two commands share a byte.", "quantifier": "all 256 bytes, all commands", "why_tests_cant": "finite but must be complete; stated for every byte", "anchors": ["mybin-core/src/lib.rs:Command"]}
{"id": "C18", "title": "Register-slave and table-dump and change-user commands delimit their strings", "statement": "The length prefixes in these commands always equal the number of bytes that follow, so that a server recovers host, user, password, port and ids (resp. database and table, resp. user, auth data, db, plugin, attributes). Exceptions (proved as findings): strings of 256 bytes and more are cut (register slave) or make the packet misread (table dump, change user).", "quantifier": "all strings of any length, all ids", "why_tests_cant": "8-bit length prefixes overflow only for long strings", "anchors": ["mybin-core/src/cmd/register_slave.rs", "mybin-core/src/cmd/table_dump.rs", "mybin-core/src/cmd/change_user.rs"]}
{"id": "C19", "title": "Binlog dump commands round-trip", "statement": "The binlog-dump and GTID binlog-dump requests written by the library are read back by the library as the same request, for all positions, server ids, flags, file names and GTID ranges. The requests are read from exactly the byte strings with the documented layout, and for any sequence of builder calls the last call on each setting counts while GTID sources are collected in order.", "quantifier": "all u64/u32 positions and ids, all file names, all lists of (sid, ranges)", "why_tests_cant": "unbounded nested lists", "anchors": ["mybin-core/src/cmd/binlog_dump.rs:ComBinlogDump", "mybin-core/src/cmd/binlog_dump.rs:ComBinlogDumpGtid", "mybin-core/src/cmd/binlog_dump.rs:SidRange"]}
{"id": "C20", "title": "Prepared-statement execution carries the parameters faithfully", "statement": "A server decoding the execute request recovers the statement id and, for each parameter in order, whether it is NULL, its type and signedness and its value, for every parameter list. Exceptions (proved as findings): a string, blob, bit or decimal parameter of exactly 251 bytes makes the request unreadable; a parameter built by the explicit timestamp constructor arrives without its microseconds; minus zero times arrive as zero; leap seconds and years beyond 65535 are outside the parameter range.", "quantifier": "all statement ids and all parameter lists of any length and types", "why_tests_cant": "null-bitmap boundaries at multiples of 8 and all value encodings", "anchors": ["mybin-core/src/cmd/stmt_execute.rs:ComStmtExecute", "mybin-core/src/col.rs:BinaryColumnValue", "mybin-core/src/stmt.rs:StmtColumnValue"]}
{"id": "C21", "title": "Column type codes", "statement": "Type codes convert to types and back without loss; every unknown code is rejected with an error.", "quantifier": "all 256 codes", "why_tests_cant": "completeness over every code", "anchors": ["mybin-core/src/col.rs:ColumnType"]}
{"id": "C22", "title": "Binary column values round-trip", "statement": "Every typed value written in binary protocol form is read back as the same value under its column type, leaving the bytes of the following column untouched. Exceptions (proved as findings): strings of exactly 251 bytes are read back as NULL with their bytes left in the input; a minus-zero time is read back as zero; the Timestamp variant is read back as a DateTime without its microseconds.", "quantifier": "all values of all supported types, all trailing bytes", "why_tests_cant": "length-dependent date/time forms, length-encoded strings, 2^64 numbers", "anchors": ["mybin-core/src/col.rs:BinaryColumnValue::read_from", "mybin-core/src/col.rs:BinaryColumnValue::write_to"]}
{"id": "C23", "title": "Binary rows decode", "statement": "For every list of column types and every row of matching values or NULLs, the row encoded by a server decodes to exactly these values in order, NULLs included.", "quantifier": "all column counts, null patterns and values", "why_tests_cant": "null bitmap has a 2-bit offset; all column counts", "anchors": ["mybin-core/src/row.rs:BinaryRow", "mybin-core/src/bitmap.rs:to_iter"]}
{"id": "C24", "title": "Text rows decode", "statement": "For every row of byte strings and NULLs, the text-protocol row encoded by a server decodes to exactly the same row.", "quantifier": "all rows of any width and content", "why_tests_cant": "unbounded strings and widths", "anchors": ["mybin-core/src/row.rs:TextRow"]}
{"id": "C25", "title": "Typed extraction preserves values", "statement": "Extracting an integer, boolean, string, float or temporal value from a column returns precisely the value the column holds, an error on a type mismatch, and NULL either as None or as a null error - never a different value. Exceptions (proved as findings): signedness is not checked (an unsigned target of a negative column gives value + 2^bits, a signed target of a large unsigned column gives value - 2^bits); a MEDIUMINT can only be read with the 24 bit targets; a boolean target maps every number but 1 to false; zero and other non-existing dates panic; the crate's own date-time type cannot be read from binary rows.", "quantifier": "all column values and all target types", "why_tests_cant": "sign/width conversions across 2^64 values", "anchors": ["mybin-core/src/resultset.rs:FromColumnValue", "mybin-core/src/util.rs:try_number_from_binary_column_value"]}
{"id": "C26", "title": "Columns are found by index and by name", "statement": "Looking up a column by index returns that column or an out-of-range error; looking up by name returns the column with that exact name when unique, falls back to a case-insensitive match, and errors if there is none. Exceptions (proved as findings): with duplicate names the last column wins.", "quantifier": "all column-definition lists, names, rows", "why_tests_cant": "duplicate names and case collisions across all lists", "anchors": ["mybin-core/src/resultset.rs:ColumnExtractor"]}
{"id": "C27", "title": "Result sets deliver exactly the server's rows", "statement": "Iterating a result set yields exactly the rows the server sent, in order, then None forever, consuming exactly the result set's packets; collecting all, counting, taking the first agree with this sequence; a server error inside the rows surfaces as an error. Exceptions (proved as findings): a server error among text rows surfaces as a generic error without the server's code and message; among binary rows it is decoded as a row.", "quantifier": "all numbers of columns and rows, row contents, both protocols", "why_tests_cant": "unbounded row sequences; rows whose first byte looks like a terminator", "anchors": ["mybin-async/src/resultset.rs:new_result_set", "mybin-async/src/resultset.rs:next_row", "mybin-async/src/resultset.rs:all"]}
{"id": "C28", "title": "Executing a statement reports the server's verdict", "statement": "Executing a non-query returns success iff the server answered OK, the server's error iff it answered ERR, and leaves the connection at a message boundary ready for the next command. Exceptions (proved as findings): executing a SELECT: a prepared statement's row may be taken for OK leaving the rest unread, a query's rows are skipped and the call waits for a further message.", "quantifier": "all server answers", "why_tests_cant": "every possible reply stream", "anchors": ["mybin-async/src/query.rs:exec", "mybin-async/src/stmt.rs:exec", "mybin-async/src/stmt.rs:prepare"]}
{"id": "C29", "title": "Binlog event header codec", "statement": "Event headers decode to the fields they carry for all 19-byte inputs, and the payload length reported equals total length minus header length. Exceptions (proved as findings): asking for the payload length panics when the total length is below 19.", "quantifier": "all 19-byte headers", "why_tests_cant": "lengths below 19 underflow", "anchors": ["mybin-core/src/binlog/header.rs:EventHeader", "mybin-core/src/binlog/header.rs:EventHeaderV1"]}
{"id": "C30", "title": "Event type codes", "statement": "Event type codes 0..38 convert to event types and back losslessly and distinctly; other codes are classified as unknown or rejected.", "quantifier": "all 256 codes", "why_tests_cant": "completeness over every code", "anchors": ["mybin-core/src/binlog/mod.rs:LogEventType"]}
{"id": "C31", "title": "Binlog event framing", "statement": "Parsing one event consumes exactly the event's announced length, returns its header and exactly its body (without the checksum), and parsing a concatenation of events returns exactly those events in order; skipping consumes the same bytes as parsing; unsupported events are consumed and reported as None. Exceptions (proved as findings): announced lengths below 19, or with checksums below 23, panic instead of being rejected.", "quantifier": "all event sequences, types, bodies, with and without checksums", "why_tests_cant": "unbounded logs", "anchors": ["mybin-core/src/binlog/parser.rs:parse_event", "mybin-core/src/binlog/parser.rs:skip_event"]}
{"id": "C32", "title": "Checksum verification", "statement": "With validation on, an event is returned only if the trailing 4 bytes equal the CRC of everything before them; on a mismatch an error is returned and no input is consumed. Without validation the payload is the same.", "quantifier": "all event bytes, any checksum function", "why_tests_cant": "all corruptions of all events", "anchors": ["mybin-core/src/binlog/parser.rs:parse_event", "mybin-core/src/binlog/parser.rs:checksum_event", "mybin-core/src/util.rs:checksum_crc32"]}
{"id": "C33", "title": "Binlog file opening", "statement": "A file is accepted iff it starts with the magic number and its first event is a format description event; after opening, the input is positioned exactly at the second event and the checksum setting and per-event post-header lengths equal what the format description announces. Exceptions (proved as findings): the format description's own post-header length (table entry for event 15) decides where the table ends; values below 57 panic.", "quantifier": "all files", "why_tests_cant": "arbitrary server versions, post-header tables and trailing checksum bytes", "anchors": ["mybin-core/src/binlog/parser.rs:from_binlog_file", "mybin-core/src/binlog/parser.rs:BinlogVersion", "mybin-core/src/binlog/fde.rs:FormatDescriptionData"]}
{"id": "C34", "title": "Row events decode", "statement": "Decoding the rows of a write/delete event yields exactly the rows logged - values, NULLs and absent columns - for every present-column bitmap and NULL bitmap; an update event yields every before/after pair. Decoding terminates. Exceptions (proved as findings): a row image without any present column makes the decoder loop forever; an extra-data length below 2 panics; absent and NULL columns both decode to NULL and are told apart only by the present bitmap.", "quantifier": "all column lists, bitmaps, row counts, values", "why_tests_cant": "unbounded rows x bitmaps; a zero-column image loops forever", "anchors": ["mybin-core/src/row.rs:LogRow", "mybin-core/src/binlog/rows_v2.rs:RowsV2", "mybin-core/src/binlog/rows_v2.rs:UpdateRowsV2"]}
{"id": "C35", "title": "Table-map events decode", "statement": "A table-map event decodes to the schema, table, and for each column its type with all its metadata and nullability. Exceptions (proved as findings): a table with a SET column makes the decoder panic, one with a JSON column is rejected, and the pre-5.6 TIME, DATETIME and TIMESTAMP types panic.", "quantifier": "all schema/table names, column lists and metadata", "why_tests_cant": "metadata widths depend on column types; unbounded columns", "anchors": ["mybin-core/src/binlog/table_map.rs:RawTableMap", "mybin-core/src/col.rs:ColumnMetas", "mybin-core/src/col.rs:ColumnMeta"]}
{"id": "C36", "title": "Binlog column values decode", "statement": "Each column value stored in a row image is decoded to the value MySQL stored and consumes exactly its bytes (integers, floats, strings, blobs, enums, bits, dates, times with every fractional precision, decimals). Exceptions (proved as findings): TIMESTAMP(1..6) values leave their fraction bytes unread so that the following columns are misread; negative TIME(1..4) values with a fraction (C47) and DECIMALs with a multiple of nine integer digits (C37) are decoded wrongly.", "quantifier": "all values of all column types and metadata", "why_tests_cant": "packed formats over huge domains; fraction bytes of TIMESTAMP are ignored", "anchors": ["mybin-core/src/col.rs:BinlogColumnValue", "mybin-core/src/time.rs:MyTime::from_binlog", "mybin-core/src/time.rs:MyDateTime::from_binlog"]}
{"id": "C37", "title": "DECIMAL values print correctly", "statement": "The decimal decoded from MySQL's packed representation prints as exactly the stored number for every precision and scale. Exceptions (proved as findings): groups of digits are printed without zero padding, so 1.05 prints as 1.5 and exactly the values needing no padding print right; with an integer part of a multiple of nine digits 2^31 is added to its first group; DECIMAL(1,1), (3,3) and (5,5) to (8,8) panic.", "quantifier": "all precisions, scales, digits and signs", "why_tests_cant": "digit groups with leading zeros are a thin slice of the domain", "anchors": ["mybin-core/src/decimal.rs:MyDecimal::read_from", "mybin-core/src/decimal.rs:Display"]}
{"id": "C38", "title": "GTID sets decode", "statement": "A previous-gtids event decodes to exactly the set of (sid, intervals) it encodes; malformed (overlapping, unordered, empty) interval lists are rejected. Exceptions (proved as findings): of a server id listed twice only the last entry is kept; counts near 2^63 panic on allocation.", "quantifier": "all gtid sets", "why_tests_cant": "unbounded nested lists and boundaries", "anchors": ["mybin-core/src/binlog/gtid.rs:GtidSet", "mybin-core/src/binlog/gtid.rs:GtidRange"]}
{"id": "C39", "title": "Fixed-layout binlog event bodies decode", "statement": "Rotate, xid, rand, intvar, incident, user-var, gtid, query (with its status variables) and load event bodies decode to exactly the fields encoded in them, and raw block data is returned complete. Exceptions (proved as findings): create-file and append-block data is cut at the first zero byte, or rejected if there is none; a query event whose updated-databases list overflowed (count 254) fails to decode its status variables.", "quantifier": "all field values and byte strings", "why_tests_cant": "unbounded strings, optional sections", "anchors": ["mybin-core/src/binlog/rotate.rs", "mybin-core/src/binlog/xid.rs", "mybin-core/src/binlog/rand.rs", "mybin-core/src/binlog/intvar.rs", "mybin-core/src/binlog/incident.rs", "mybin-core/src/binlog/user_var.rs", "mybin-core/src/binlog/query.rs", "mybin-core/src/binlog/load.rs"]}
{"id": "C40", "title": "Generated SQL literals denote the value", "statement": "The SQL literal produced for a column value, read by MySQL's lexer, denotes exactly that value: numbers with their signedness, quoted strings with all their bytes, NULL, dates and times. Exceptions (proved as findings): backslashes in text are not escaped (literals that do not end, SQL injection), text with a quote is read as Latin-1, text that is not UTF-8 panics, BIT values of more than one byte have their bytes reversed or panic, the fraction of a DATETIME is lost, dates outside the calendar and geometry values panic, TIME values of 89478486 days or more panic or are taken for negative ones.", "quantifier": "all values of all types", "why_tests_cant": "quote and backslash handling over all strings; sign handling over 2^64 numbers", "anchors": ["mybin-core/src/stmt.rs:to_sql_literal", "mybin-core/src/binlog/transform/sql.rs:sql_list"]}
{"id": "C41", "title": "Generated SQL statements reproduce the logged change", "statement": "Each logged row yields exactly one statement; it names the right table and columns, pairs every present column with that column's logged value, and restricts updates and deletes by key columns. Exceptions (proved as findings): row images that lack an earlier column pair values with the wrong columns, tables without key columns give an empty WHERE, a NULL key is compared with =, backticks in names are not doubled.", "quantifier": "all tables, bitmaps, row lists", "why_tests_cant": "partial row images; number of placeholders versus parameters for all shapes", "anchors": ["mybin-core/src/binlog/transform/sql.rs:PreparedSql", "mybin-core/src/binlog/transform/mod.rs:filter_col_defs"]}
{"id": "C42", "title": "JSON rows mirror the logged change", "statement": "Each logged row yields one JSON row with the right kind, table, and a before/after object mapping every present column's name to that column's value; base64-encoded columns are exactly those listed. Exceptions (proved as findings): row images that lack an earlier column pair values with the wrong columns; text that is not UTF-8, non-finite floats, dates outside the calendar, geometry and wide BIT values panic; BIT bytes are reversed; the fraction of a DATETIME is lost.", "quantifier": "all tables, bitmaps, row lists", "why_tests_cant": "partial row images and all value types", "anchors": ["mybin-core/src/binlog/transform/json.rs"]}
{"id": "C43", "title": "Binlog streaming delivers every event once, in order", "statement": "Pulling events from a binlog stream returns the supported events the server sends, in order, each once, skipping unsupported ones; end of stream in non-blocking mode yields None and keeps yielding None. Exceptions (proved as findings): after the None that ends a non-blocking stream, further calls read on instead of yielding None; an ERR packet in the stream loses the server's code and text; without GTIDs the position is reduced modulo 2^32; a first rotate event without room for its checksum panics.", "quantifier": "all event streams, all interleavings of unsupported events", "why_tests_cant": "unbounded histories", "anchors": ["mybin-async/src/binlog.rs:next_event", "mybin-async/src/binlog.rs:recv_and_parse_event", "mybin-async/src/binlog.rs:request_stream"]}
{"id": "C44", "title": "mybinlog dml prints the selected statements", "statement": "The dml command prints one statement per logged row of every table that passes the filters, in log order, never more than a non-zero limit, stops at the first rotation unless asked to go on, and resolves table ids with the latest mapping of the current file. Exceptions (proved as findings): an id given to another table within a log still stands for the first one; updates of a table are printed only if a column is flagged both primary and unique, otherwise a note; row events of version 1 are ignored.", "quantifier": "all event histories, filters, limits", "why_tests_cant": "unbounded histories with table-id reuse", "anchors": ["mybinlog/src/mybinlog.rs:print_dmls", "mybinlog/src/mybinlog.rs:key_exists"]}
{"id": "C45", "title": "Decoding untrusted bytes never panics", "statement": "No decoder panics (arithmetic overflow, out-of-bounds, unreachable/unimplemented) on any byte string: malformed input yields an error value. Exceptions (proved as findings): the greeting (secure connection announced with a length of authentication data below 8), a DOUBLE with 5 to 7 bytes left, binlog values (listed case by case: old DECIMAL, GEOMETRY, a DATETIME of zeros, BIT and BLOB metadata out of range, DECIMAL fractions that overflow, VARCHAR longer than its maximum), events announcing less than their header, format descriptions with bad post-header lengths, table maps with unsupported columns, row events with bad extra length, too many columns or such values, GTID sets with huge counts and LOAD events with 2^32 bytes of names panic; the theorems state for each decoder exactly on which messages. A row event with no column present and bytes left never returns, and no other.", "quantifier": "all byte strings, all decoders", "why_tests_cant": "fuzzing samples; panics hide behind specific length bytes", "anchors": ["mybin-core/src/packet.rs", "mybin-core/src/handshake.rs", "mybin-core/src/row.rs", "mybin-core/src/col.rs", "mybin-core/src/binlog/", "bytes-parser/src/my.rs"]}
{"id": "C46", "title": "Decoders are local and self-delimiting", "statement": "Every decoder consumes a prefix of its input: the bytes left are a suffix of the input; and a self-delimiting decoder's result does not depend on bytes after those it consumed. Exceptions (proved as findings): a binlog DECIMAL at the end of the input is read as zero.", "quantifier": "all decoders, all inputs and continuations", "why_tests_cant": "all inputs and all continuations", "anchors": ["bytes-parser/src/lib.rs", "bytes-parser/src/my.rs", "mybin-core/src/packet.rs", "mybin-core/src/col.rs", "mybin-core/src/binlog/"]}
{"id": "C47", "title": "Packed TIME / DATETIME decode", "statement": "For every TIME in MySQL's range (positive or negative) and every DATETIME, and every fractional precision 0..6, decoding the packed binlog form yields exactly the sign, days, hours, minutes, seconds and microseconds that were stored. Exceptions (proved as findings): a negative TIME with one to four fractional digits and a non-zero fraction decodes to too many microseconds.", "quantifier": "all times, datetimes, precisions", "why_tests_cant": "negative fractional values only", "anchors": ["mybin-core/src/time.rs:packed_from_time_binary", "mybin-core/src/time.rs:packed_from_datetime_binary"]}
{"id": "C48", "title": "Text TIME values parse", "statement": "Parsing MySQL's textual TIME (sign, up to 838 hours, 0..6 fraction digits) yields the value it denotes. Of all byte strings exactly those are accepted that are white space, a signed 64-bit number of hours, a colon, minutes and a colon, seconds (numbers below 256, with an optional plus), and optionally a point and a number below 2^32; the value is the one those numbers give. Every other text is refused with an error. Exceptions (proved as findings): the sign of a negative TIME under one hour is lost; non-zero fractions of 1, 2, 4 or 5 digits are read as that many microseconds; hours count modulo 2^32; the lowest number of hours panics in a build with checks and gives minus zero hours in one without.", "quantifier": "all textual times a server sends; all byte strings; both builds", "why_tests_cant": "sign of -00:xx and fraction digit counts", "anchors": ["mybin-core/src/time.rs:FromColumnValue<TextColumnValue> for Option<MyTime>"]}
{"id": "C49", "title": "Login completes exactly when the server accepts", "statement": "Against any server that greets with a supported authentication method and answers the login with OK, the login operation succeeds, having sent exactly one login packet that carries the caller's user, database and an acceptable authentication response, and leaves the connection with the announced capabilities, the server's status and packet numbering reset; an error reply makes it fail. Exceptions (proved as findings): an authentication switch request panics.", "quantifier": "all greetings, credentials, OK packets, chunkings of the stream, digests", "why_tests_cant": "needs a server; the combination of seeds, passwords, capability words and chunkings is unbounded", "anchors": ["mybin-async/src/conn.rs:handshake", "mybin-async/src/conn.rs:gen_init_auth_resp", "mybin-async/src/conn.rs:new_auth_plugin"]}
{"id": "C50", "title": "Every command sends exactly its request and returns the server's verdict", "statement": "Each connection command (select database, create/drop database, refresh, kill, reset, register as replica, quit, list fields, statistics, debug, ping, multi-statement option, process list, change user, reading and setting variables, listing binlog files) sends exactly the requests MySQL defines for it with the caller's arguments, consumes exactly the server's answer whatever its chunking, and returns success or data iff the server said so and the server's error otherwise. Exceptions (proved as findings): an error answer to ping is reported as success; the multi-statement option is requested inverted; an error answer to statistics is reported as bad UTF-8; changing user panics on extra authentication data without a preceding switch.", "quantifier": "all arguments, server answers, capability words, chunkings of both streams", "why_tests_cant": "needs a server; all answers and all chunkings are unbounded", "anchors": ["mybin-async/src/conn.rs:init_db", "mybin-async/src/conn.rs:field_list", "mybin-async/src/conn.rs:ping", "mybin-async/src/conn.rs:set_multi_stmts", "mybin-async/src/conn.rs:change_user", "mybin-async/src/conn.rs:get_var", "mybin-async/src/conn.rs:set_var", "mybin-async/src/conn.rs:binlog_files"]}
{"id": "C51", "title": "Results do not depend on how bytes arrive", "statement": "Whatever a client does on a connection (logging in, commands, queries, prepared statements, reading result sets, binlog streams, in any order and reacting to results and to reported errors), its results, the bytes it sends and the state it leaves depend only on the bytes that arrive, not on the portions or the waiting with which the transport delivers them or accepts output; the same bytes remain unread. The same holds for the lines printed by the dml command over its two connections.", "quantifier": "all client programs composed of the library's calls, all byte streams, all read and write schedules without write failures", "why_tests_cant": "schedules and programs are unbounded; a test sees one chunking", "anchors": ["mybin-async/src/conn.rs:recv_msg", "mybin-async/src/conn.rs:send_msg", "mybin-async/src/resultset.rs:next_row", "mybin-async/src/stmt.rs", "mybin-async/src/query.rs", "mybin-async/src/binlog.rs:next_event", "mybinlog/src/mybinlog.rs:print_dmls"]}
{"id": "C52", "title": "A lost connection is always noticed and never changes an answer", "statement": "Let the connection end at any point of what the server sends. Every client program then either reports an I/O error or had already finished with exactly the result, output and connection state it would have had without the loss. The dml command has then printed a prefix of what it would have printed.", "quantifier": "all client programs, all streams, all cut points, all schedules", "why_tests_cant": "every cut point of every exchange", "anchors": ["mybin-async/src/conn.rs:recv_msg", "mybin-async/src/resultset.rs:next_row", "mybin-async/src/stmt.rs", "mybin-async/src/binlog.rs:next_event", "mybinlog/src/mybinlog.rs:print_dmls"]}
{"id": "C53", "title": "No peer can hang the client, and it panics only on listed bad messages", "statement": "Whatever bytes a server (or an impostor) sends, in whatever portions, every client program comes to an end with the bytes it was given: no call loops for ever. Simple commands, prepare, close and reading rows of a text result set return a value or an error whatever arrives. The other calls can be made to panic only by messages that actually arrive and are bad in a listed sense: an empty message (statements), or NULL for the number of columns (queries), a row that ends inside a DOUBLE (binary rows), a greeting with a short seed or a request to switch the method (login), further data before a switch request (change user), an event that announces less than its own header (streams), a malformed format description (requesting a stream). Exceptions (proved as findings): each of these messages does bring the client down with a panic instead of an error.", "quantifier": "all byte streams, all schedules, all calls and arguments (shorter than two gigabytes when overflow is checked), all client programs", "why_tests_cant": "the input is chosen by an adversary; absence of panics and of loops is a statement about every byte string", "anchors": ["mybin-async/src/conn.rs:recv_msg", "mybin-async/src/conn.rs:handshake", "mybin-async/src/query.rs", "mybin-async/src/stmt.rs", "mybin-async/src/resultset.rs:next_row", "mybin-async/src/binlog.rs:next_event"]}
{"id": "C54", "title": "Calls never leave the connection in the middle of a message", "statement": "Unless a call (or a whole program) reports that the connection is lost, what it has consumed of the incoming bytes is a whole number of protocol messages, whether it returns a value, an error or panics; so later calls start reading at a message boundary.", "quantifier": "all client programs, all byte streams (well formed or not), all schedules", "why_tests_cant": "every error path of every call on every input", "anchors": ["mybin-async/src/conn.rs:recv_msg", "mybin-async/src/resultset.rs:next_row", "mybin-async/src/stmt.rs", "mybin-async/src/query.rs"]}
{"id": "C55", "title": "Replaying the generated statements reproduces the logged changes", "statement": "Take the tables as they were before a stretch of binlog and run, one after the other, the statements that the library generates (and that the command dml prints) for its row events: the tables end up exactly as they were after it, row by row, and nothing else changes. This holds for every sequence of inserted, deleted and updated rows, also across several tables and with a table filter, when the row images are full, values and names are those with right literals (C40, C41), and the rows always satisfy the key of the table. Exceptions (proved as findings): a row whose key holds a NULL is not found again and the table stays as it was; for a table without a key the deletions are not SQL; the command prints no updates for ordinary primary keys (C44).", "quantifier": "all logs, all table contents and histories of changes, all filters, both settings of backslash escapes", "why_tests_cant": "end-to-end statement about every history of changes; an example only shows one script", "anchors": ["mybin-core/src/binlog/transform/sql.rs:from_insert", "mybin-core/src/binlog/transform/sql.rs:from_delete", "mybin-core/src/binlog/transform/sql.rs:from_update", "mybinlog/src/mybinlog.rs:print_dmls"]}
{"id": "C56", "title": "What is bound to a statement is what comes back", "statement": "When arguments are bound to a prepared statement and the server sends back, in a binary row with columns of fitting types, exactly the values it read from the request, then asking that row for the arguments' own Rust types returns the arguments: integers of every width and sign, floats bit by bit, booleans, years, bits, strings, byte vectors, decimals (the same text is parsed), dates, times and date-times, and NULL as absence. This holds however the server chooses to encode the values, for one query that echoes its parameters and for rows inserted with one statement and selected with another. Exceptions (proved as findings): the crate's own MyDateTime can be bound but never read back as itself; digits below the microsecond are dropped; strings of exactly 251 bytes are excluded (C20).", "quantifier": "all argument lists of the supported Rust types, all batches of rows, all admissible encodings of the cells, all fitting column definitions, all chunkings of the stream", "why_tests_cant": "ranges over all values of twenty Rust types and over every encoding a server may choose; it composes sending, the server's reading and typed extraction", "anchors": ["mybin-core/src/stmt.rs:ToColumnValue", "mybin-core/src/stmt.rs:StmtColumnValue", "mybin-core/src/resultset.rs:FromColumnValue", "mybin-async/src/stmt.rs:qry", "mybin-async/src/resultset.rs:next_row"]}
{"id": "C57", "title": "The protocol options in effect are those both sides agreed on", "statement": "After a login the client reads and writes packets with the options it announced, and these are the options both sides have exactly if the server has all of them. Exceptions (proved as findings): the client never looks at the options of the server, so a server that lacks DEPRECATE_EOF (before MySQL 5.7.5) still logs it in but no row of any result set can be read from it: the first call for a row fails although the rows are there, and mybinlog list fails.", "quantifier": "all greetings, all option words, all logins that succeed, all result sets of such a server", "why_tests_cant": "a test runs against one server version; the property is about every set of options a server may announce", "anchors": ["mybin-async/src/conn.rs:handshake", "mybin-core/src/handshake.rs:HandshakeClientResponse41", "mybin-async/src/resultset.rs:next_row"]}
{"id": "C58", "title": "The two programs do what they are run for, from login to output", "statement": "mybinlog list logs in, asks for the log files and returns exactly those; mybinlog dml logs in twice, requests the file from its start and prints exactly the lines for the selected tables, so that running its output reproduces the logged changes; mybinmsg reports every supported event in order. They send exactly one login per connection and the requests for this, print nothing if they cannot connect, are refused or get a filter that is no regular expression, do not depend on how the network cuts or delays the bytes, and print a beginning of the output if the server stops early. Exceptions (proved as findings): a row event that says no column is present makes dml run for ever, and no other message of any server does; mybinmsg panics when its configuration names a socket file, and can only end by failing.", "quantifier": "all servers accepting a login by either method, all users, passwords, filters, limits, logs and tables, all ways to cut, delay or end the byte streams, all byte streams for termination", "why_tests_cant": "end-to-end statement over all logs, all servers and all network schedules, including hostile ones", "anchors": ["mybinlog/src/mybinlog.rs:main", "mybinlog/src/mybinlog.rs:exec_list", "mybinlog/src/mybinlog.rs:exec_dml", "mybinmsg/src/mybinmsg.rs:main"]}
{"id": "C59", "title": "A call can be given up while it waits", "statement": "A call that waits for the server can be dropped, for example by a timeout, and repeated. Dropped between messages (before the first byte, or after events that are not reported) nothing is lost: the next wait for an event or a row gives the result, and leaves the connection in the state, the dropped call would have. Exceptions (proved as findings): dropped in the middle of a message, exactly the bytes read so far are lost and the rest of the message is taken for messages; for every row and every event there is a content that makes the client report it although the server never sent it. A command dropped while it is sent leaves a beginning of its packet on the wire, and the next command is taken for the rest of it.", "quantifier": "all streams and result sets, both row protocols, all points at which a call is dropped, all ways the bytes arrive before and after, all forged rows and events", "why_tests_cant": "the effect depends on the point of the drop and on the rest of the byte stream; the claim covers every such point", "anchors": ["mybin-async/src/conn.rs:recv_msg", "mybin-async/src/conn.rs:send_msg", "mybin-async/src/binlog.rs:next_event", "mybin-async/src/resultset.rs:next_row", "bytes-parser/src/util.rs"]}
{"id": "C60", "title": "A transport that stops taking output is noticed", "statement": "If the transport fails after taking any part of the output, every sequence of calls either reports an I/O error or ends with the result it has on a working transport; what was sent is a beginning of what would have been sent, and all of it if no error is reported. Exceptions (proved as findings): the error of the message that closes a statement is dropped when a statement is executed and closed in one call, so that this call, and those that set a variable, report success although this message was not or only partly sent.", "quantifier": "all programs of calls, all inputs from the server, all points at which the output fails", "why_tests_cant": "crash-point quantification: any prefix of the output may be the last", "anchors": ["mybin-async/src/conn.rs:send_msg", "mybin-async/src/stmt.rs:exec_close", "mybin-async/src/conn.rs:set_var", "mybin-async/src/conn.rs:set_user_var"]}
{"id": "C61", "title": "Text is exactly the valid UTF-8", "statement": "Bytes are handed to the user as a string exactly if they encode a sequence of Unicode characters, and then unchanged; anything else is an error. This holds for column values read as strings in both row protocols, the names in table maps and the messages of server errors; the characters are determined by the bytes.", "quantifier": "all byte strings and all sequences of Unicode scalar values", "why_tests_cant": "all character sequences of all lengths, and all byte strings that are none", "anchors": ["mybin-core/src/resultset.rs:from_value", "mybin-core/src/binlog/table_map.rs:table_map", "mybin-async/src/error.rs:from"]}
{"id": "C62", "title": "Each answer belongs to its statement", "statement": "In any sequence of statements and commands on a connection, where the server answers each with one result and result sets are read to their end, every call reports the result of its own statement, including errors, and nothing is left unread. Exceptions (proved as findings): the client says it can take several results for one statement but never looks for a second one; so after a stored procedure or a text of several statements the second result is reported for the next statement, whose own answer stays unread. The same happens when a result set is dropped or closed before its end: a row can then be reported as the success of a statement the server refused.", "quantifier": "all sequences of steps, all results of all sizes, text and binary protocol, all ways the bytes arrive", "why_tests_cant": "histories of any length; the fault shows only in a later statement", "anchors": ["mybin-async/src/query.rs", "mybin-async/src/stmt.rs", "mybin-async/src/resultset.rs:close", "mybin-async/src/conn.rs:handshake"]}
{"id": "C63", "title": "A table reads the same through both protocols", "statement": "A table selected with a query and with a prepared statement gives the application the same values: for every table and every cell, asking the row of either result set for a Rust type that fits the column and the value returns that value. Whatever type is asked of whatever column, if both protocols answer, the answers are equal. Exceptions: numbers of the upper half of an UNSIGNED column asked for as a wider signed type and the TIME values whose text is read wrong (C48) differ; an integer type narrower than the column is read from texts only; so is the crate's own date-time.", "quantifier": "every table, column type and flag, stored value, every text with leading zeros and every binary form the server may choose, every Rust type both protocols offer except f32 and f64, every parser of dates that reads the texts of existing dates, every delivery of the bytes", "why_tests_cant": "a test compares the two protocols on a few values; the agreement has to hold for every value, column and type, and its exceptions have to be complete", "anchors": ["mybin-core/src/resultset.rs: FromColumnValue impls for TextColumnValue and BinaryColumnValue, ColumnExtractor::get_col", "mybin-core/src/time.rs: FromColumnValue impls for MyTime, MyDateTime", "mybin-core/src/util.rs: try_from_text_column_value, try_number_from_binary_column_value", "mybin-async/src/query.rs: Query::qry", "mybin-async/src/stmt.rs: PreparedStmt::qry"]}
{"id": "C64", "title": "A binlog can be read in several sessions without losing or repeating an event", "statement": "A client that keeps the place after each event it was given (the position in the event's header, or the file and position a rotate event names) and asks for the log from that place in its next session is given, over all its sessions, exactly the supported events of the log from its first place on, each once and in order. This holds for logs of any number of files and events, wherever sessions end: the client stops after any number of events, or the connection breaks off at any byte, also within the preliminaries, the made up events between two files or an event. A session that is not cut short brings the client up to date. Exception: all files must agree on checksums; a stream goes on reading as the first description said.", "quantifier": "all logs (any number of files, events and unsupported events, with or without checksums), all histories of sessions, all numbers of events read per session, all points at which a connection breaks off, all places of heartbeats, all options and server variables", "why_tests_cant": "Crash points multiply with the contents of the log and with the number of sessions; off-by-one positions show only after a restart at a particular byte.", "anchors": ["mybin-async/src/binlog.rs: BinlogStream::next_event, recv_and_parse_event, request_stream, pos, filename", "mybin-core/src/binlog/parser.rs: ParserV4::parse_event", "mybin-core/src/binlog/header.rs: EventHeader", "mybin-core/src/binlog/rotate.rs: RotateData"]}
{"id": "C65", "title": "What is set under a variable's name is what is read back", "statement": "For every history of set_user_var, get_user_var, set_var and get_var calls on a connection (any names that need no quoting, any argument values, any order, session and global scope), against a server that keeps user and system variables as the MySQL manual describes and reads the statements it is sent as SQL: each call reports exactly what the server's variables demand (a setting the server refuses is reported as its error and changes nothing), the variables end as the calls demand, every prepared statement is closed, and no message is left unread. So a user variable that is set reads back as the same number, text or NULL under any spelling of its name until it is set again, and a system variable reads in the scope it was set in as the text the server accepted, unaffected by other variables and by the other scope, provided no other variable's name matches its name read as a pattern. Exceptions (proved as findings): get_var sends the name as a LIKE pattern, so an underscore in it can make it report another variable's value (C65_pattern_refuted); get_user_var sends the name as SQL, so reading \"n := 7\" assigns n (C65_assign_refuted).", "quantifier": "all call histories, all names and values, all server states (variables, open statements, statement numbers), all servers' admission rules and all answers they may send", "why_tests_cant": "The property is about unbounded histories interleaving settings and readings of any number of variables, and about the SQL text built from arbitrary names; a test fixes one history and one server state.", "anchors": ["mybin-async/src/conn.rs: Conn::get_var, Conn::set_var, Conn::get_user_var, Conn::set_user_var", "mybin-async/src/stmt.rs: Stmt::exec_close", "mybin-async/src/query.rs: Query::qry"]}
{"id": "C66", "title": "The script made from a server's log makes the changes the log records", "statement": "A server has tables with SQL values in them and logs what happens to them: table maps and row events whose bytes are the ones MySQL writes for the column types and the values, between any other events. For every such log, every sequence of inserts, deletes and updates on any number of tables in any number of log files, and every pair of name filters: mybinlog dml prints a script which, run against the chosen tables as they were before, makes them exactly what they were after, and leaves every other table alone. If the connection ends behind any event, the lines printed make the changes up to there; with --limit n they make the first n changes. Each value on its own: the bytes written for it are read to the last one and the literal printed from them is the value (all integer types signed and unsigned, floats, decimals, years, dates, times, datetimes, timestamps, bits, enums, blobs, varchars, chars, NULL). Of all the values that a column can hold, exactly those are left out that do not come through (C66_exact; the reasons are the findings of C36, C37 and C40); altered tables are left out too. Finding: one table map with a SET or JSON column ends the run, even if the filters leave that table out (C66_unsupported_refuted). Finding: altered tables are rightly left out: after a column has been moved or dropped the script is accepted and makes other rows, after one has been added its lines are no statements (C66_altered_refuted).", "quantifier": "all tables, column types, values, row images, change histories, log layouts, filters, file boundaries, connection chunkings and cut points", "why_tests_cant": "The claim relates unbounded histories of unbounded tables to the script printed from their bytes; a test compares a script with one hand-written expectation.", "anchors": ["mybin-core/src/binlog/transform/sql.rs:from_insert", "mybin-core/src/binlog/transform/sql.rs:from_delete", "mybin-core/src/binlog/transform/sql.rs:from_update", "mybin-core/src/col.rs", "mybin-core/src/row.rs", "mybin-core/src/stmt.rs", "mybin-core/src/binlog/table_map.rs", "mybin-core/src/binlog/rows_v2.rs", "mybinlog/src/mybinlog.rs:exec_dml"]}
{"id": "C67", "title": "JSON documents made from a server's log carry its rows", "statement": "A server that inserts, updates or deletes rows of a table logs a table map event and a rows event. From the bytes of the two events and the column definitions that the server gives of the table, the library makes one JSON document for each row, in order: with the kind of change, the names of the database and the table, and, as the row before and the row after, objects that have exactly the columns of the table, each with the value it has in the row; the columns whose values are binary, and so in base64, are listed. This holds for any column types but SET and JSON, any number of rows and columns, NULLs anywhere, and for exactly those column values whose bytes are decoded and converted right. Exceptions (proved as findings): the values left out by the exact condition, which are those of C66 without a right SQL literal (BIT values that are not the same backwards, fractional seconds, the zero date, decimals with padding) and floating-point numbers that are not finite; but texts with backslashes, which no SQL literal carries, come through.", "quantifier": "every table of supported column types, every list of rows with values of those types, every bitmap padding, every id, flags and extra data of the two events, every column definitions that agree with the table", "why_tests_cant": "The statement ranges over all tables, rows and values; tests convert a few rows that were decoded from a captured log.", "anchors": ["mybin-core/src/binlog/transform/json.rs:JsonRows::from_insert, from_delete, from_update, to_json_value", "mybin-core/src/binlog/rows_v2.rs", "mybin-core/src/binlog/table_map.rs", "mybin-core/src/col.rs:BinlogColumnValue"]}
{"id": "C68", "title": "Number futures read and write exactly their number", "statement": "The exported macros of bytes-parser define futures that read or write one number. Whatever way a reader delivers its bytes (in pieces of any size, not yet, interrupted), the reading future ends with the number in the first bytes and takes no more than these; at the end of the stream it reports how many bytes are missing; a failure of the reader is returned. The writing future sends exactly the bytes of the number to a writer that takes them at once, however long it is made to wait. Exceptions (proved as findings): to a writer that takes only a part, the beginning of the number is sent again, so that success is reported although wrong bytes were sent, or the number is sent for ever.", "quantifier": "every width, every conversion, every stream, every order and size of the steps of the reader or writer", "why_tests_cant": "The statement ranges over all ways in which a transport can split, delay or interrupt the transfer; the macros have no tests.", "anchors": ["bytes-parser/src/util.rs:read_number_future", "bytes-parser/src/util.rs:write_number_future"]}
{"id": "C69", "title": "Decoding makes nothing out of thin air", "statement": "Whatever is decoded successfully fits in the bytes it was decoded from: the strings in it, plus one for each element of its lists (columns, text cells, status variables, database names, GTID identifiers and intervals, rows), plus what is left of the input, are never more than the length of the input, for all messages of a session, all event bodies and the requests of a replica. A binary row has at most eight cells for each byte. The cells of the rows of an event are exactly rows times columns, and at most twice the square of its length. Exceptions (proved as findings): columns that are not present are decoded into NULL cells again in every row, so that for every factor c below 2^28 there is a rows event of 2c+11 bytes that is decoded into more than c times as many cells.", "quantifier": "every input of every length, every capability set, every column list, every announced count", "why_tests_cant": "The bound relates the size of an arbitrary result to that of an arbitrary input; tests only decode well-formed captures.", "anchors": ["mybin-core/src/packet.rs", "mybin-core/src/handshake.rs", "mybin-core/src/col.rs:ColumnDefinition", "mybin-core/src/row.rs", "mybin-core/src/binlog/rows_v2.rs:RowsV2", "mybin-core/src/binlog/table_map.rs:TableMap", "mybin-core/src/binlog/query.rs:StatusVars", "mybin-core/src/binlog/gtid.rs:GtidSet", "mybin-core/src/binlog/load.rs", "mybin-core/src/cmd/binlog_dump.rs"]}
{"id": "C70", "title": "A damaged event is never delivered", "statement": "In a log with checksums, an event in which up to 32 consecutive bits were changed in any way, or any two bits flipped (at most 2^32-2 bits apart), in its header, its body or its checksum, is not delivered when checksums are validated: reading it fails with an error that names the mismatch (or the type that does not exist), takes nothing from the input, and the events before it are delivered unchanged, from a file and from a stream. Exceptions (proved as findings): the length field decides where the checksum is looked for, and a change of six bits in it can turn an event into another one that is accepted. A change spanning 33 bits can be accepted: CRC-32 detects no more.", "quantifier": "every event, every place and pattern of the damage, every sequence of events before it, every schedule of the stream", "why_tests_cant": "The detection power of the checksum is an algebraic fact about all error patterns at all positions of all messages; tests flip a few bits of one capture.", "anchors": ["mybin-core/src/binlog/parser.rs:ParserV4", "mybin-core/src/binlog/parser.rs:parse_event", "mybin-core/src/binlog/parser.rs:checksum_event", "mybin-core/src/util.rs:checksum_crc32", "mybin-async/src/binlog.rs:BinlogStream"]}
{"id": "C71", "title": "The password stays with the client", "statement": "Whatever the server sends, everything the client sends, prints and returns while logging in, while changing the user and in each of the tools depends on the password only through its SHA-1 and SHA-256 digests and on whether it is empty: two passwords that agree in these cannot be told apart. With mysql_native_password an answer recorded for one nonce is accepted for another only if SHA-1 collides. Exception (finding): with caching_sha2_password the login is the same for every nonce, so a recorded one can be replayed.", "quantifier": "every two passwords with equal digests, every pair of digest functions, every server (honest or not), every schedule of both directions, every user, database and option", "why_tests_cant": "That a secret does not flow anywhere is a statement about pairs of runs against every possible server; a test sees single runs against one server.", "anchors": ["mybin-async/src/auth_plugin.rs:MysqlNativePassword", "mybin-async/src/auth_plugin.rs:CachingSha2Password", "mybin-async/src/conn.rs:handshake", "mybin-async/src/conn.rs:change_user"]}
{"id": "C72", "title": "A release build does what a checked build does", "statement": "Compiled without overflow checks and debug assertions (cargo's release profile), every decoder, every client program and both command line programs give the same results, send the same bytes and leave the same input unread as the checked build, wherever that one is not stopped by an overflow check or a debug assertion; and the release build itself is never stopped by one. Reading a greeting, a row or value of the binary protocol, or skipping an event then never panics. A stored value stops it only by the type of its column, whatever the bytes are (DECIMAL of old, GEOMETRY, a blob whose length does not have one to four bytes); a row event stops it exactly when it has a value for a column the table lacks or of such a type behind rows that can be read, or announces 2^32-7 columns or more and goes on after them; and it goes on for ever exactly when no column is there and something follows. Opening a log stops it exactly when the format description has fewer than fifteen post-header lengths or fewer than its own says (less 57, modulo 2^8); comparing a checksum exactly when the event announces less than four bytes; a table map just as in the checked build; a LOAD event never. Exceptions (proved as findings): where a checked build panics, the release build may go on with a wrapped number: an event too short for its checksum is handed out with the checksum bytes as data, a DATETIME of zeros becomes the year 10082, a DECIMAL whose last digits do not fit gets other digits, a TIME of -2^63 hours becomes -00:00:00; and comparing the checksum of an event announcing less than four bytes still panics.", "quantifier": "all inputs of all decoders, all programs of any length on a connection, all server behaviour and transports", "why_tests_cant": "tests run in one profile; the claim relates two builds on every input and history", "anchors": ["Cargo.toml", "mybin-core/src/handshake.rs", "mybin-core/src/binlog/parser.rs", "mybin-core/src/time.rs", "mybin-core/src/decimal.rs", "mybin-core/src/col.rs", "mybin-async/src/conn.rs", "bytes-parser/src/lib.rs"]}
{"id": "C73", "title": "Repeated executions are read as meant, with or without types", "statement": "However often and in whatever order an application executes its prepared statements, setting the fields of the execute request itself, a server that remembers the parameter types it was last sent per statement reads for every request the statement, the cursor flags, one iteration and the arguments, provided types are sent unless those sent last for the same statement still fit (a NULL fits any). The fields for the iteration count and the NULL bitmap have no influence. Requests made by the library itself always send the types and need no such rule. Exceptions (proved as findings): nothing compares the arguments with the types sent last, so an argument of another type sent without its type is read as another value; a NULL is sent with the type NULL, so that no value can follow it without its type.", "quantifier": "all sequences of executions of any statements with any arguments, flags and field contents, interleaved in any order", "why_tests_cant": "the meaning of a request depends on the whole history of earlier requests", "anchors": ["mybin-core/src/cmd/stmt_execute.rs:ComStmtExecute", "mybin-core/src/cmd/stmt_execute.rs:CursorTypeFlags", "mybin-core/src/stmt.rs", "mybin-core/src/bitmap.rs"]}
{"id": "C74", "title": "The client says what its calls stand for and nothing else", "statement": "Whatever the server sends, however it is split into reads and wherever it ends, an application that makes any calls of the library, in any order and depending on earlier results and errors, makes the client send exactly the messages those calls stand for, in that order and nothing in between: every call opens its exchange with commands numbered from 0 that the server reads as that command with these arguments (if the protocol can express them), and only a login or a change of user answers anything the server sends; those answers are numbered on from the server's packet directly before and are empty or prove to some nonce that the password is known. A call that fails has sent a beginning of that. The client reads whole messages and sends whole messages. A login consists of one login packet naming user, database, plugin and capabilities, and such answers. In particular a request of the server for a local file is never answered. One exception, which needs a message of 4 GB in a build with overflow checks: the message breaks off.", "quantifier": "all applications (calls, results, errors, branching), all bytes of the server in all portions, all states of the connection, both builds", "why_tests_cant": "a hostile or broken server may answer anything at any point of any sequence of calls", "anchors": ["mybin-async/src/conn.rs:send_msg", "mybin-async/src/conn.rs:handshake", "mybin-async/src/conn.rs:change_user", "mybin-async/src/query.rs", "mybin-async/src/stmt.rs:exec_close", "mybin-async/src/resultset.rs:close", "mybin-async/src/binlog.rs:request"]}
{"id": "C75", "title": "Replies of a server are accepted exactly when they follow the wire format", "statement": "A decoder of the library returns a value, leaving certain bytes unread, if and only if the bytes it took are an encoding of exactly that value in the documented layout (field after field, every field of its width or length), and a message that is not such an encoding is refused; so nothing malformed is silently taken for something else and nothing well formed is refused, for the greeting, every reply (OK, error, end of data, request to switch or to go on authenticating), column definitions, prepared statement heads and rows of both protocols. The liberties the decoders take are part of the layouts: reserved bytes are not looked at, a number may be encoded longer than needed, and bytes behind a message's last field are ignored.", "quantifier": "all byte strings, all values, all capabilities and column types", "why_tests_cant": "a test tries some well formed messages; that a decoder takes nothing else and that every other value or length is refused ranges over all byte strings", "anchors": ["mybin-core/src/packet.rs", "mybin-core/src/handshake.rs", "mybin-core/src/resp.rs", "mybin-core/src/col.rs", "mybin-core/src/row.rs", "mybin-core/src/stmt.rs"]}
{"id": "C76", "title": "Binlog events are accepted exactly when they follow the binlog format", "statement": "A decoder of binlog data returns a value, leaving certain bytes unread, if and only if the bytes it took are an encoding of exactly that value in the documented layout of the binlog; anything else is refused. This holds for event headers, the version and first event of a file, the framing of an event with or without checksum and with or without validation, events passed over, transaction identifiers and sets of them, queries with their status variables, table maps, the heads of row events of both versions, the load data events and the small events (rotate, integer and user variables, random seeds, commit, incidents). The liberties the decoders take are part of the layouts: flags and paddings not looked at, zero bytes allowed behind a name and the bytes behind a body's last field. The same holds of opening a file, of reading its first n events in order, and of verifying an event's checksum in place.", "quantifier": "all byte strings, all values, all checksum functions and parser settings", "why_tests_cant": "a test tries some events; that every other byte string is refused, and that every event in the format is taken with its value, ranges over all byte strings", "anchors": ["mybin-core/src/binlog/header.rs", "mybin-core/src/binlog/fde.rs", "mybin-core/src/binlog/parser.rs", "mybin-core/src/binlog/gtid.rs", "mybin-core/src/binlog/query.rs", "mybin-core/src/binlog/load.rs", "mybin-core/src/binlog/table_map.rs", "mybin-core/src/binlog/rows_v1.rs", "mybin-core/src/binlog/rows_v2.rs"]}
{"id": "C77", "title": "Table maps, stored values and row images are accepted exactly when they follow the binlog format", "statement": "Decoding a table map, a value of a column, the image of a row or all rows of an insertion, deletion or update gives a result, leaving certain bytes unread, if and only if the bytes taken are an encoding of exactly that result in the documented layout; anything else is refused. This covers the description of every column type, times, dates and datetimes of every precision, decimals of every precision and scale, strings, blobs, bits and enumerations, the bitmaps of absent and NULL columns and the whole sequence of rows to the end of the event. The liberties the decoders take are part of the layouts: the sign of a datetime dropped, fixed strings longer than declared, decimals at the end of the input read as zero, the upper half of a column count ignored, bytes behind the descriptions of columns passed over.", "quantifier": "all byte strings, all column types and descriptions, all bitmaps and numbers of columns and rows, all values", "why_tests_cant": "a test tries some rows; that every other byte string is refused, and that every row in the format is taken with its values, ranges over all byte strings and tables", "anchors": ["mybin-core/src/col.rs", "mybin-core/src/time.rs", "mybin-core/src/decimal.rs", "mybin-core/src/row.rs", "mybin-core/src/bitmap.rs", "mybin-core/src/binlog/table_map.rs", "mybin-core/src/binlog/rows_v2.rs"]}
{"id": "C78", "title": "What a call reports is exactly what the server's bytes say", "statement": "A call on a session returns a value, or reports an error of the server with its code, state and text, and leaves certain bytes unread, if and only if the arriving bytes are a sequence of messages that say exactly that, followed by those bytes. This covers selecting, creating and dropping databases, refreshing, killing, resetting, registering as a replica, pings, statistics, debug information, switching multiple statements, statements executed for their effect, queries, prepared statements, the fields of a table, the rows of a result set one by one or all together, the events of a stream, logins, changes of user, reading and setting variables, listing binlog files and requesting a stream. The liberties taken are part of the description: a ping takes any first byte, a statement passes over everything before the first OK or ERR, a count of columns is cut to 32 bits, bytes behind definitions and rows are ignored, an ERR whose texts are not UTF-8 is not reported as the server's error, and an ERR among the rows or events, or in answer to a login, never is.", "quantifier": "all byte streams however cut into reads, all capabilities, all arguments, all result sets and streams", "why_tests_cant": "a test plays some replies; that no other byte stream makes a call succeed or blame the server, and that every stream of the described form does, ranges over all byte streams", "anchors": ["mybin-async/src/conn.rs", "mybin-async/src/query.rs", "mybin-async/src/stmt.rs", "mybin-async/src/resultset.rs", "mybin-async/src/binlog.rs", "mybin-async/src/error.rs", "mybin-core/src/resp.rs", "mybin-async/src/auth_plugin.rs", "mybin-core/src/handshake.rs"]}
{"id": "C79", "title": "What a release build accepts and reports is exactly what the bytes say, lengths modulo a power of two", "statement": "In a release build (no overflow checks), a server greeting, a binlog file's first event, an event read, skipped or verified, and n events of a file are taken for a value if and only if the bytes have that value's layout, where a length given by a field that is too small is the one that wraps around to it: a greeting announcing fewer than 8 bytes of random data has 248 more, an event length below 19 stands for 4 GiB more, a table entry below 57 for 256 more; an event too short for its checksum keeps its bytes as data. A login, a request for a stream and reading the next event report a result or an error of the server if and only if the arriving bytes are messages saying so with these layouts. Events, greetings and first events mean the same as in a build with checks exactly when these lengths are not too small. The rows of a statement are delivered exactly as in a build with checks. With all checks on, logins, changes of user and stream requests report the same unless a check stops them. A table map, the value of a column of any type, the image of a row and all rows of an insertion, deletion or update are likewise taken exactly for what the bytes say: a DATETIME of zero bytes only is the year 10082, a bit field of 255 bytes and some bits is empty, a text may be longer than declared, a DECIMAL with more digits behind the point than in all has 256 more, its last group is cut to 32 bits, and at least 2^32-7 columns have an empty bitmap and no rows. All other values, and all table maps, mean the same as in a build with checks.", "quantifier": "all byte strings, digests, checksum functions, options, connection states whose output is accepted, all divisions of the input into reads, all numbers of events, all column descriptions, table maps, values and row events", "why_tests_cant": "the claim is an equivalence over all inputs, among them events of more than 4 GiB, and tests run with overflow checks on", "anchors": ["mybin-core/src/handshake.rs: InitialHandshake", "mybin-core/src/binlog/parser.rs: ParserV4", "mybin-core/src/binlog/fde.rs", "mybin-core/src/binlog/header.rs", "mybin-async/src/conn.rs", "mybin-async/src/binlog.rs", "mybin-core/src/binlog/rows_v2.rs", "mybin-core/src/binlog/table_map.rs", "mybin-core/src/time.rs: MyDateTime::from_binlog", "mybin-core/src/decimal.rs"]}
