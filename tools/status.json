{
 "C01": {
  "status": "proved",
  "note": "All widths with a writer and all big endian readers, for all values and trailing bytes. False of the code for read_be_i24 (reads little endian) and read_be_i40 (no sign extension): refuted, with theorems for the actual behaviour."
 },
 "C02": {
  "status": "proved",
  "note": "All readers; false for read_le_f64 (refuted, actual behaviour proved)."
 },
 "C03": {
  "status": "proved",
  "note": "All u64 except 251, which the code writes as NULL (refuted)."
 },
 "C04": {
  "status": "proved",
  "note": "All strings except those of length 251, which are read back as NULL (refuted for all of them)."
 },
 "C05": {
  "status": "proved",
  "note": ""
 },
 "C06": {
  "status": "proved",
  "note": "All payload lengths, chunkings, partial writes. With overflow checks the message must not reach sequence number 256 (see C07)."
 },
 "C07": {
  "status": "proved",
  "note": "Proved for builds without overflow checks; with overflow checks sending a packet numbered 255 panics (refuted)."
 },
 "C08": {
  "status": "proved",
  "note": ""
 },
 "C09": {
  "status": "proved",
  "note": "Command responses: all codes, states, messages, capabilities. False for ERR packets answering the login: the SQL state is glued to the message (refuted for all such packets)."
 },
 "C10": {
  "status": "proved",
  "note": "All fields and capability sets. Rejected although sendable: status bit 15 (refuted), info string left out under session tracking (refuted)."
 },
 "C11": {
  "status": "proved",
  "note": ""
 },
 "C12": {
  "status": "proved",
  "note": "All greetings with a seed length of at least 8; shorter announced lengths panic (refuted)."
 },
 "C13": {
  "status": "proved",
  "note": "NUL-free strings and lengths other than 251; the exceptions are refuted (251 byte auth response, NUL in the user name, no SECURE_CONNECTION/lenenc capability). C13_login_exact: a login with length encoded auth data or without attributes is read as meant if and only if its strings can be sent (Spec/Delimited.v)."
 },
 "C14": {
  "status": "proved",
  "note": "For every 20-byte digest function, password and nonce."
 },
 "C15": {
  "status": "partial",
  "note": "False of the code: the server nonce is never used (refuted for every digest; rejected by a server with the real SHA-256). Proved: the scramble is right for the nonce it is given, the exchange after it, and exactly when a server accepts the response sent (C15_accepted_exactly)."
 },
 "C49": {
  "status": "proved",
  "note": "mysql_native_password and caching_sha2_password fast path. An authentication switch request panics (refuted)."
 },
 "C16": {
  "status": "proved",
  "note": "NUL-free table names for COM_FIELD_LIST, exactly (C16_field_list_exact). COM_SET_OPTION sends the opposite option (refuted)."
 },
 "C17": {
  "status": "proved",
  "note": ""
 },
 "C18": {
  "status": "proved",
  "note": "Strings shorter than 256 bytes (attribute strings other than 251 bytes long). Longer ones are cut (register slave) or make the packet misread (table dump, change user): refuted; the *_exact theorems state if and only if."
 },
 "C19": {
  "status": "proved",
  "note": "GTID sets and file names up to 4 GiB, file names in UTF-8."
 },
 "C20": {
  "status": "proved",
  "note": "Every argument type with a ToColumnValue implementation, every list of arguments; exceptions of the statement are the _refuted theorems."
 },
 "C21": {
  "status": "proved",
  "note": "All 27 types; the protocol types NEWDATE, JSON, ENUM and SET are not known to the library and rejected."
 },
 "C22": {
  "status": "proved",
  "note": "Round trip, written form is a protocol form, all protocol forms are read; exceptions of the statement are the _refuted theorems."
 },
 "C23": {
  "status": "proved",
  "note": "Any protocol encoding of the row, any bits in the unused positions of the NULL bitmap."
 },
 "C24": {
  "status": "proved",
  "note": "Any number of columns below 2^58 (the allocation bound of the column vector)."
 },
 "C47": {
  "status": "proved",
  "note": "All TIME and DATETIME values of MySQL, all precisions; the exception of the statement is the _refuted theorem."
 },
 "C48": {
  "status": "proved",
  "note": "All TIME texts a server sends: what is read is characterised exactly; exceptions are the _refuted theorems."
 },
 "C37": {
  "status": "proved",
  "note": "The exact condition for every precision and scale is C37_exact: printed right iff the integer part is not a multiple of nine digits long and no group of digits needs padding. The exceptions are the _refuted theorems."
 },
 "C29": {
  "status": "proved",
  "note": "headers of v4 and v1 logs, fast paths; length below 19 panics (finding)"
 },
 "C30": {
  "status": "proved",
  "note": ""
 },
 "C31": {
  "status": "proved",
  "note": "single event, whole log, soundness, skipping; short announced lengths panic (finding)"
 },
 "C32": {
  "status": "proved",
  "note": "any checksum function below 2^32, plus concrete CRC-32 bound"
 },
 "C33": {
  "status": "proved",
  "note": "acceptance, settings, position, rejection, whole log"
 },
 "C38": {
  "status": "proved",
  "note": "exactness, membership, rejection, soundness; sets below 4 GiB"
 },
 "C39": {
  "status": "proved",
  "note": "all event bodies; truncated blocks and the 254 marker are findings"
 },
 "C34": {
  "status": "proved",
  "note": "Row images for every present bitmap, NULL bitmap and padding; update pairs; loop on zero present columns and panic on short extra data shown"
 },
 "C35": {
  "status": "proved",
  "note": "Every column list and all metadata; SET and JSON findings shown"
 },
 "C36": {
  "status": "proved",
  "note": "All types the table map can describe; TIMESTAMP fraction desync shown; TIME and DECIMAL exceptions in C47, C37"
 },
 "C25": {
  "status": "proved",
  "note": "All binary and text targets; float/decimal/date text parsers of std, bigdecimal and chrono are parameters. Findings: C25_*_refuted."
 },
 "C26": {
  "status": "proved",
  "note": "For every lower-casing function; duplicates: the last one."
 },
 "C27": {
  "status": "proved",
  "note": "Holds for both protocols, plain and mapped rows, every chunking, lost connections. Findings: server errors among rows lose their message (text) or become rows (binary)."
 },
 "C28": {
  "status": "proved",
  "note": "Verdicts, soundness of success, preparation and closing, for every reply stream. Findings: SELECT through exec."
 },
 "C50": {
  "status": "proved",
  "note": "All commands of Conn except the binlog stream (C43). Findings: ping hides errors, set_multi_stmts inverted, statistics error, change_user panic."
 },
 "C40": {
  "status": "proved",
  "note": "Exact: among the values that a server stores, the literal is read as the value if and only if the predicate expressible holds (C40_exact; for any text C40_text_exact); each excluded class is characterised by its own theorem."
 },
 "C41": {
  "status": "proved",
  "note": "Exact for every row image: the statement for a row is right if and only if the names hold no backtick and the values in question are written like the first ones of the decoded row; right for every row of a prefix image (any full image), wrong for every row without NULLs of an image with a gap. The no-key and NULL-key cases are separate findings."
 },
 "C42": {
  "status": "proved",
  "note": "Exact for inserts and deletes of every row image: a document stands for a row if and only if that is the same in JSON as the first values of the decoded row; right for every prefix image, wrong for every row without NULLs of an image with a gap; exact for values: among those a server stores, the JSON value is right if and only if json_expressible holds (C42_value_exact)."
 },
 "C43": {
  "status": "proved",
  "note": "Events, end, breaks and the whole request conversation for every chunking of the stream; 'keeps yielding None' is refuted for a stream that ended (it holds for one the server refused to start)."
 },
 "C44": {
  "status": "proved",
  "note": "For every history of events, every filter, limit and rotation setting, with the helper connection's lookups; the whole command from the bytes of both connections in non-blocking mode. Regular expressions are predicates; the counter's usize overflow and stderr are not modelled."
 },
 "C45": {
  "status": "proved",
  "note": "The panic-free decoders are listed in Spec/Catalogue.v; for each of the others the messages on which it panics are characterised exactly (Spec/Catalogue.v for values, Spec/Panics.v for messages: table maps with payloads below 2^61 bytes), with witnesses; row events that never return likewise."
 },
 "C46": {
  "status": "proved",
  "note": "All decoders leave a suffix; self-delimiting ones depend on the bytes they use only. Exception for DECIMAL proved with companion."
 },
 "C51": {
  "status": "proved",
  "note": "For every composition of the modelled calls; write failures are excluded (the transport accepts output in any portions)."
 },
 "C52": {
  "status": "proved",
  "note": "The result set, statement, command, login and stream calls and the dml command. A statement that is executed and closed sends the close message even after a lost connection."
 },
 "C53": {
  "status": "proved",
  "note": "Findings: empty replies, NULL column counts, short greeting seeds, auth data before a switch request and events shorter than their header bring the client down with a panic (C53_*_refuted). C53_*_exact say exactly which sequences of messages bring statements, queries, rows, streams, logins and changes of user down (login and change of user: builds without overflow checks)."
 },
 "C54": {
  "status": "proved",
  "note": "For every client program."
 },
 "C55": {
  "status": "proved",
  "note": "Proved for inserts, deletes, updates, whole logs and the dml command; the three exceptions are proved as findings."
 },
 "C56": {
  "status": "proved",
  "note": "End to end through the session; MyDateTime finding included."
 },
 "C57": {
  "status": "proved",
  "note": "The exact condition, and the finding as a theorem about every result set of a server without DEPRECATE_EOF."
 },
 "C58": {
  "status": "proved",
  "note": "Regular expressions and digests are parameters (compile, sha1, sha256). The printing of events by mybinmsg is modelled by the list of events; its subscribe and notify settings are not used by the code."
 },
 "C59": {
  "status": "proved",
  "note": "drops between messages proved harmless for events and rows; drops inside a message and while sending are findings (_refuted)"
 },
 "C60": {
  "status": "proved",
  "note": "all programs; the dropped error of the statement close is the proved exception"
 },
 "C61": {
  "status": "proved",
  "note": "validation = encodings of scalar values, both directions, plus its uses in columns, names and errors"
 },
 "C62": {
  "status": "proved",
  "note": "sequences of any length; several results per statement and undrained result sets are findings"
 },
 "C63": {
  "status": "proved",
  "note": "Proved for every table and delivery of bytes under a contract for chrono's date parsers, which concrete parsers satisfy. The four exceptions are proved exactly as C63_agree's listed cells and three _refuted theorems. f32 and f64 are left out: their texts are not exact."
 },
 "C64": {
  "status": "proved",
  "note": "the client's bookkeeping and the server are specifications; row events that follow their table map in the log may be delivered in a later session than it, so a client that decodes rows must restart at a table map or transaction"
 },
 "C65": {
  "status": "proved",
  "note": "Names that need no quoting; values asked back as integers, booleans, strings and bytes (floats, dates and times only as far as C65_calls: their text is the server's). The pattern and SQL-injection exceptions are theorems."
 },
 "C66": {
  "status": "proved",
  "note": "Row images are full (binlog_row_image=FULL) and the chosen tables have not been altered since; the values admitted are exactly those that come through (C66_exact), SET and JSON columns are the finding of C35."
 },
 "C67": {
  "status": "proved",
  "note": "For all supported column types, rows and values, exactly those that the conversion gets right (C67_exact)."
 },
 "C68": {
  "status": "proved",
  "note": "Reading for every schedule; writing for writers that take the number at once, which is exact for numbers whose first byte occurs once (C68_write_exact); refuted for the others."
 },
 "C69": {
  "status": "proved",
  "note": "Exact for strings and list elements; for the cells of rows events the quadratic bound and a family of events that is not linear. Memory reserved ahead of reading (Vec::with_capacity) is not part of the decoded value; see C04."
 },
 "C70": {
  "status": "proved",
  "note": "CRC-32 as written in Spec/BinlogSpec.v"
 },
 "C71": {
  "status": "proved",
  "note": "noninterference for every server and schedule, digests arbitrary; replay resistance of native, replayability of caching_sha2 refuted"
 },
 "C72": {
  "status": "proved",
  "note": ""
 },
 "C73": {
  "status": "proved",
  "note": "all sequences of executions; types remembered per statement; two exceptions as findings"
 },
 "C74": {
  "status": "proved",
  "note": "Digest lengths (20 and 32 bytes) are hypotheses on the external digests."
 },
 "C75": {
  "status": "proved",
  "note": "equivalences: a decoder returns a value exactly for the byte strings of its layout; refused otherwise"
 },
 "C76": {
  "status": "proved",
  "note": "exact: both directions for every decoder named"
 },
 "C77": {
  "status": "proved",
  "note": "exact: both directions for every decoder named"
 },
 "C78": {
  "status": "proved",
  "note": "Exact replies of the commands, statements, queries, preparation, field lists, rows, events, logins, changes of user, variables, binlog files and stream requests.  For logins, changes of user and stream requests the packet numbers wrap around as in a release build; other arithmetic is checked."
 },
 "C79": {
  "status": "proved",
  "note": "The build without overflow checks of Model/Release.v: exact layouts of greetings, events and files, exact reports of logins, stream requests and events, and where they differ from the build with checks."
 }
}