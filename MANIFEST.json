{
 "claims": [
  {
   "property": "C01",
   "status": "proved",
   "theorems": [
    "C01_unsigned_codecs",
    "C01_signed_codecs",
    "C01_float_codecs",
    "C01_big_endian_readers",
    "C01_be_i24_refuted",
    "C01_be_i24_actual",
    "C01_be_i40_refuted",
    "C01_be_i40_actual"
   ],
   "note": "All widths with a writer and all big endian readers, for all values and trailing bytes. False of the code for read_be_i24 (reads little endian) and read_be_i40 (no sign extension): refuted, with theorems for the actual behaviour."
  },
  {
   "property": "C02",
   "status": "proved",
   "theorems": [
    "C02_short_fixed_width",
    "C02_short_counted",
    "C02_missing_delimiter",
    "C02_f64_actual",
    "C02_f64_refuted"
   ],
   "note": "All readers; false for read_le_f64 (refuted, actual behaviour proved)."
  },
  {
   "property": "C03",
   "status": "proved",
   "theorems": [
    "C03_write",
    "C03_shortest",
    "C03_round_trip",
    "C03_read",
    "C03_read_only",
    "C03_251_refuted"
   ],
   "note": "All u64 except 251, which the code writes as NULL (refuted)."
  },
  {
   "property": "C04",
   "status": "proved",
   "theorems": [
    "C04_write",
    "C04_round_trip",
    "C04_read",
    "C04_read_only",
    "C04_null",
    "C04_251_refuted"
   ],
   "note": "All strings except those of length 251, which are read back as NULL (refuted for all of them)."
  },
  {
   "property": "C05",
   "status": "proved",
   "theorems": [
    "C05_round_trip",
    "C05_from_iter",
    "C05_index",
    "C05_iter",
    "C05_mark",
    "C05_index_oob",
    "C05_iter_oob",
    "C05_mark_oob"
   ],
   "note": ""
  },
  {
   "property": "C06",
   "status": "proved",
   "theorems": [
    "C06_send_recv",
    "C06_send_wire",
    "C06_multiple_ends_empty",
    "C06_packet"
   ],
   "note": "All payload lengths, chunkings, partial writes. With overflow checks the message must not reach sequence number 256 (see C07)."
  },
  {
   "property": "C07",
   "status": "proved",
   "theorems": [
    "C07_send_numbers",
    "C07_recv",
    "C07_seq_255_refuted"
   ],
   "note": "Proved for builds without overflow checks; with overflow checks sending a packet numbered 255 panics (refuted)."
  },
  {
   "property": "C08",
   "status": "proved",
   "theorems": [
    "C08_recv_many",
    "C08_truncated",
    "C08_total"
   ],
   "note": ""
  },
  {
   "property": "C09",
   "status": "proved",
   "theorems": [
    "C09_err_decodes",
    "C09_err_surfaces",
    "C09_err_not_utf8",
    "C09_handshake_err_refuted",
    "C09_handshake_err_early"
   ],
   "note": "Command responses: all codes, states, messages, capabilities. False for ERR packets answering the login: the SQL state is glued to the message (refuted for all such packets)."
  },
  {
   "property": "C10",
   "status": "proved",
   "theorems": [
    "C10_ok_decodes",
    "C10_status_bit15_refuted",
    "C10_omitted_info_refuted"
   ],
   "note": "All fields and capability sets. Rejected although sendable: status bit 15 (refuted), info string left out under session tracking (refuted)."
  },
  {
   "property": "C11",
   "status": "proved",
   "theorems": [
    "C11_eof_decodes",
    "C11_response_classified",
    "C11_handshake_classified",
    "C11_switch_decodes",
    "C11_more_decodes"
   ],
   "note": ""
  },
  {
   "property": "C12",
   "status": "proved",
   "theorems": [
    "C12_greeting_decodes",
    "C12_short_seed_refuted"
   ],
   "note": "All greetings with a seed length of at least 8; shorter announced lengths panic (refuted)."
  },
  {
   "property": "C13",
   "status": "proved",
   "theorems": [
    "C13_default_capabilities",
    "C13_default_login",
    "C13_login_decodes",
    "C13_auth_251_refuted",
    "C13_plain_auth_refuted",
    "C13_nul_in_user_refuted",
    "C13_login_exact"
   ],
   "note": "NUL-free strings and lengths other than 251; the exceptions are refuted (251 byte auth response, NUL in the user name, no SECURE_CONNECTION/lenenc capability). C13_login_exact: a login with length encoded auth data or without attributes is read as meant if and only if its strings can be sent (Spec/Delimited.v)."
  },
  {
   "property": "C14",
   "status": "proved",
   "theorems": [
    "C14_native_accepted",
    "C14_native_accepted_no_nul",
    "C14_empty_password"
   ],
   "note": "For every 20-byte digest function, password and nonce."
  },
  {
   "property": "C15",
   "status": "partial",
   "theorems": [
    "C15_accepted_exactly",
    "C15_nonce_ignored_refuted",
    "C15_rejected_refuted",
    "C15_scramble_accepted_partial",
    "C15_exchange"
   ],
   "note": "False of the code: the server nonce is never used (refuted for every digest; rejected by a server with the real SHA-256). Proved: the scramble is right for the nonce it is given, the exchange after it, and exactly when a server accepts the response sent (C15_accepted_exactly)."
  },
  {
   "property": "C16",
   "status": "proved",
   "theorems": [
    "C16_field_list_exact",
    "C16_text_commands",
    "C16_field_list",
    "C16_numeric_commands",
    "C16_single_byte_commands",
    "C16_set_option_refuted"
   ],
   "note": "NUL-free table names for COM_FIELD_LIST, exactly (C16_field_list_exact). COM_SET_OPTION sends the opposite option (refuted)."
  },
  {
   "property": "C17",
   "status": "proved",
   "theorems": [
    "C17_round_trip",
    "C17_distinct",
    "C17_decode_exact",
    "C17_unknown_rejected",
    "C17_protocol_codes"
   ],
   "note": ""
  },
  {
   "property": "C18",
   "status": "proved",
   "theorems": [
    "C18_register_slave_exact",
    "C18_table_dump_exact",
    "C18_change_user_exact",
    "C18_register_slave",
    "C18_register_slave_long_refuted",
    "C18_table_dump",
    "C18_table_dump_long_refuted",
    "C18_change_user",
    "C18_change_user_long_refuted"
   ],
   "note": "Strings shorter than 256 bytes (attribute strings other than 251 bytes long). Longer ones are cut (register slave) or make the packet misread (table dump, change user): refuted; the *_exact theorems state if and only if."
  },
  {
   "property": "C19",
   "status": "proved",
   "theorems": [
    "C19_dump_round_trip",
    "C19_dump_request",
    "C19_dump_short",
    "C19_gtid_round_trip",
    "C19_gtid_request",
    "C19_builders",
    "C19_defaults",
    "C19_accepts",
    "C19_builder_calls"
   ],
   "note": "GTID sets and file names up to 4 GiB, file names in UTF-8."
  },
  {
   "property": "C20",
   "status": "proved",
   "theorems": [
    "C20_constructors",
    "C20_any_type",
    "C20_execute_request",
    "C20_string_251_refuted",
    "C20_timestamp_fraction_refuted"
   ],
   "note": "Every argument type with a ToColumnValue implementation, every list of arguments; exceptions of the statement are the _refuted theorems."
  },
  {
   "property": "C21",
   "status": "proved",
   "theorems": [
    "C21_round_trip",
    "C21_decode_exact",
    "C21_unknown_rejected",
    "C21_one_byte",
    "C21_protocol_codes",
    "C21_unsupported_codes"
   ],
   "note": "All 27 types; the protocol types NEWDATE, JSON, ENUM and SET are not known to the library and rejected."
  },
  {
   "property": "C22",
   "status": "proved",
   "theorems": [
    "C22_round_trip",
    "C22_written_form",
    "C22_server_form",
    "C22_bad_length",
    "C22_timestamp_refuted",
    "C22_string_251_refuted",
    "C22_minus_zero_refuted"
   ],
   "note": "Round trip, written form is a protocol form, all protocol forms are read; exceptions of the statement are the _refuted theorems."
  },
  {
   "property": "C23",
   "status": "proved",
   "theorems": [
    "C23_row",
    "C23_row_exists"
   ],
   "note": "Any protocol encoding of the row, any bits in the unused positions of the NULL bitmap."
  },
  {
   "property": "C24",
   "status": "proved",
   "theorems": [
    "C24_row"
   ],
   "note": "Any number of columns below 2^58 (the allocation bound of the column vector)."
  },
  {
   "property": "C25",
   "status": "proved",
   "theorems": [
    "C25_signed",
    "C25_unsigned",
    "C25_medium",
    "C25_mismatch",
    "C25_plain",
    "C25_strings",
    "C25_decimal",
    "C25_date",
    "C25_datetime",
    "C25_date_refuted",
    "C25_datetime_refuted",
    "C25_my_datetime_refuted",
    "C25_my_datetime_own",
    "C25_sign_refuted",
    "C25_unsigned_sign_refuted",
    "C25_bool",
    "C25_null",
    "C25_text_unsigned",
    "C25_text_signed",
    "C25_text_other"
   ],
   "note": "All binary and text targets; float/decimal/date text parsers of std, bigdecimal and chrono are parameters. Findings: C25_*_refuted."
  },
  {
   "property": "C26",
   "status": "proved",
   "theorems": [
    "C26_by_index",
    "C26_by_name",
    "C26_unique_name"
   ],
   "note": "For every lower-casing function; duplicates: the last one."
  },
  {
   "property": "C27",
   "status": "proved",
   "theorems": [
    "C27_unsigned_column",
    "C27_prepared_columns",
    "C27_query",
    "C27_query_empty",
    "C27_query_refused",
    "C27_statement",
    "C27_statement_empty",
    "C27_statement_refused",
    "C27_text_rows",
    "C27_binary_rows",
    "C27_text_truncated",
    "C27_binary_truncated",
    "C27_text_error",
    "C27_binary_error_like_row",
    "C27_binary_error_refuted",
    "C27_close",
    "C27_close_query"
   ],
   "note": "Holds for both protocols, plain and mapped rows, every chunking, lost connections. Findings: server errors among rows lose their message (text) or become rows (binary)."
  },
  {
   "property": "C28",
   "status": "proved",
   "theorems": [
    "C28_query_ok",
    "C28_query_err",
    "C28_statement_ok",
    "C28_statement_err",
    "C28_query_sound",
    "C28_statement_sound",
    "C28_prepare",
    "C28_prepare_refused",
    "C28_exec_close",
    "C28_close",
    "C28_exec_select_refuted",
    "C28_query_select_refuted"
   ],
   "note": "Verdicts, soundness of success, preparation and closing, for every reply stream. Findings: SELECT through exec."
  },
  {
   "property": "C29",
   "status": "proved",
   "theorems": [
    "C29_header",
    "C29_short",
    "C29_header_v1",
    "C29_data_len",
    "C29_data_len_refuted",
    "C29_fast"
   ],
   "note": "headers of v4 and v1 logs, fast paths; length below 19 panics (finding)"
  },
  {
   "property": "C30",
   "status": "proved",
   "theorems": [
    "C30_round_trip",
    "C30_codes",
    "C30_injective"
   ],
   "note": ""
  },
  {
   "property": "C31",
   "status": "proved",
   "theorems": [
    "C31_parse",
    "C31_parse_all",
    "C31_sound",
    "C31_skip",
    "C31_skip_stored",
    "C31_short_length_refuted"
   ],
   "note": "single event, whole log, soundness, skipping; short announced lengths panic (finding)"
  },
  {
   "property": "C32",
   "status": "proved",
   "theorems": [
    "C32_mismatch",
    "C32_only_valid",
    "C32_unvalidated",
    "C32_checksum_event",
    "C32_crc32"
   ],
   "note": "any checksum function below 2^32, plus concrete CRC-32 bound"
  },
  {
   "property": "C33",
   "status": "proved",
   "theorems": [
    "C33_open",
    "C33_fde_bytes",
    "C33_accepted",
    "C33_no_magic",
    "C33_other_event",
    "C33_read_log"
   ],
   "note": "acceptance, settings, position, rejection, whole log"
  },
  {
   "property": "C34",
   "status": "proved",
   "theorems": [
    "C34_rows",
    "C34_update_rows",
    "C34_rows_events",
    "C34_rows_events_v1",
    "C34_no_columns_refuted",
    "C34_extra_length_refuted"
   ],
   "note": "Row images for every present bitmap, NULL bitmap and padding; update pairs; loop on zero present columns and panic on short extra data shown"
  },
  {
   "property": "C35",
   "status": "proved",
   "theorems": [
    "C35_column_types",
    "C35_table_map",
    "C35_event",
    "C35_set_refuted",
    "C35_json_refuted"
   ],
   "note": "Every column list and all metadata; SET and JSON findings shown"
  },
  {
   "property": "C36",
   "status": "proved",
   "theorems": [
    "C36_values",
    "C36_timestamp_fraction_refuted"
   ],
   "note": "All types the table map can describe; TIMESTAMP fraction desync shown; TIME and DECIMAL exceptions in C47, C37"
  },
  {
   "property": "C37",
   "status": "proved",
   "theorems": [
    "C37_print",
    "C37_exact",
    "C37_padding_refuted",
    "C37_nine_digits_refuted",
    "C37_only_fraction_refuted"
   ],
   "note": "The exact condition for every precision and scale is C37_exact: printed right iff the integer part is not a multiple of nine digits long and no group of digits needs padding. The exceptions are the _refuted theorems."
  },
  {
   "property": "C38",
   "status": "proved",
   "theorems": [
    "C38_exact",
    "C38_members",
    "C38_reject",
    "C38_sound"
   ],
   "note": "exactness, membership, rejection, soundness; sets below 4 GiB"
  },
  {
   "property": "C39",
   "status": "proved",
   "theorems": [
    "C39_typed",
    "C39_gtid",
    "C39_anonymous_gtid",
    "C39_rotate",
    "C39_xid",
    "C39_rand",
    "C39_intvar",
    "C39_incident",
    "C39_user_var",
    "C39_user_var_value",
    "C39_user_var_flags",
    "C39_query",
    "C39_status_vars",
    "C39_status_var_unknown",
    "C39_over_max_dbs_refuted",
    "C39_load",
    "C39_new_load",
    "C39_execute_load_query",
    "C39_begin_load",
    "C39_exec_load",
    "C39_delete_file",
    "C39_block_refuted"
   ],
   "note": "all event bodies; truncated blocks and the 254 marker are findings"
  },
  {
   "property": "C40",
   "status": "proved",
   "theorems": [
    "C40_exact",
    "C40_literal",
    "C40_text_exact",
    "C40_quote_refuted",
    "C40_backslash_refuted",
    "C40_injection_refuted",
    "C40_not_utf8_refuted",
    "C40_bit_refuted",
    "C40_fraction_refuted",
    "C40_zero_date_refuted",
    "C40_geometry_refuted",
    "C40_time_days_refuted"
   ],
   "note": "Exact: among the values that a server stores, the literal is read as the value if and only if the predicate expressible holds (C40_exact; for any text C40_text_exact); each excluded class is characterised by its own theorem."
  },
  {
   "property": "C41",
   "status": "proved",
   "theorems": [
    "C41_insert",
    "C41_delete",
    "C41_update",
    "C41_partial_image_refuted",
    "C41_no_key_refuted",
    "C41_null_key_refuted",
    "C41_backtick_refuted",
    "C41_insert_exact",
    "C41_delete_exact",
    "C41_update_exact",
    "C41_gap_exact",
    "C41_gap_refuted",
    "C41_update_gap_refuted"
   ],
   "note": "Exact for every row image: the statement for a row is right if and only if the names hold no backtick and the values in question are written like the first ones of the decoded row; right for every row of a prefix image (any full image), wrong for every row without NULLs of an image with a gap. The no-key and NULL-key cases are separate findings."
  },
  {
   "property": "C42",
   "status": "proved",
   "theorems": [
    "C42_value_exact",
    "C42_insert",
    "C42_delete",
    "C42_update",
    "C42_values_refuted",
    "C42_partial_image_refuted",
    "C42_insert_exact",
    "C42_delete_exact",
    "C42_update_image",
    "C42_gap_refuted"
   ],
   "note": "Exact for inserts and deletes of every row image: a document stands for a row if and only if that is the same in JSON as the first values of the decoded row; right for every prefix image, wrong for every row without NULLs of an image with a gap; exact for values: among those a server stores, the JSON value is right if and only if json_expressible holds (C42_value_exact)."
  },
  {
   "property": "C43",
   "status": "proved",
   "theorems": [
    "C43_options",
    "C43_events",
    "C43_end",
    "C43_end_again_refuted",
    "C43_completed",
    "C43_cut",
    "C43_checksum",
    "C43_error_refuted",
    "C43_request",
    "C43_request_refused",
    "C43_position_refuted",
    "C43_short_rotate_refuted",
    "C43_no_gtid_mode"
   ],
   "note": "Events, end, breaks and the whole request conversation for every chunking of the stream; 'keeps yielding None' is refuted for a stream that ended (it holds for one the server refused to start)."
  },
  {
   "property": "C44",
   "status": "proved",
   "theorems": [
    "C44_prints",
    "C44_prints_first",
    "C44_rows",
    "C44_command",
    "C44_command_cut",
    "C44_failure",
    "C44_unknown_table",
    "C44_update_refuted",
    "C44_remap_refuted",
    "C44_old_rows_refuted"
   ],
   "note": "For every history of events, every filter, limit and rotation setting, with the helper connection's lookups; the whole command from the bytes of both connections in non-blocking mode. Regular expressions are predicates; the counter's usize overflow and stderr are not modelled."
  },
  {
   "property": "C45",
   "status": "proved",
   "theorems": [
    "C45_panic_free",
    "C45_greeting",
    "C45_text_row",
    "C45_binary_value",
    "C45_binary_row",
    "C45_binlog_value",
    "C45_event",
    "C45_skip",
    "C45_format_description",
    "C45_format_description_event",
    "C45_table_map",
    "C45_rows",
    "C45_update_rows",
    "C45_gtid_set",
    "C45_dump_gtid",
    "C45_load",
    "C45_new_load",
    "C45_double_refuted",
    "C45_datetime_refuted",
    "C45_decimal_refuted",
    "C45_gtid_refuted",
    "C45_table_map_refuted",
    "C45_fde_refuted",
    "C45_load_refuted",
    "C45_event_exact",
    "C45_skip_exact",
    "C45_checksum_exact",
    "C45_format_description_event_exact",
    "C45_binary_row_exact",
    "C45_table_map_exact",
    "C45_rows_exact",
    "C45_update_rows_exact",
    "C45_gtid_set_exact",
    "C45_dump_gtid_exact",
    "C45_new_load_exact",
    "C45_open_exact"
   ],
   "note": "The panic-free decoders are listed in Spec/Catalogue.v; for each of the others the messages on which it panics are characterised exactly (Spec/Catalogue.v for values, Spec/Panics.v for messages: table maps with payloads below 2^61 bytes), with witnesses; row events that never return likewise."
  },
  {
   "property": "C46",
   "status": "proved",
   "theorems": [
    "C46_suffix",
    "C46_self_contained",
    "C46_cut",
    "C46_decimal_refuted",
    "C46_decimal"
   ],
   "note": "All decoders leave a suffix; self-delimiting ones depend on the bytes they use only. Exception for DECIMAL proved with companion."
  },
  {
   "property": "C47",
   "status": "proved",
   "theorems": [
    "C47_time",
    "C47_negative_fraction_refuted",
    "C47_datetime"
   ],
   "note": "All TIME and DATETIME values of MySQL, all precisions; the exception of the statement is the _refuted theorem."
  },
  {
   "property": "C48",
   "status": "proved",
   "theorems": [
    "C48_text_time_exact",
    "C48_text_time",
    "C48_sign_lost_refuted",
    "C48_fraction_refuted",
    "C48_accepts",
    "C48_accepts_release",
    "C48_panics",
    "C48_release_never_panics",
    "C48_refuses"
   ],
   "note": "All TIME texts a server sends: what is read is characterised exactly; exceptions are the _refuted theorems."
  },
  {
   "property": "C49",
   "status": "proved",
   "theorems": [
    "C49_native_login",
    "C49_sha2_login",
    "C49_error_reply",
    "C49_unknown_method",
    "C49_switch_refuted"
   ],
   "note": "mysql_native_password and caching_sha2_password fast path. An authentication switch request panics (refuted)."
  },
  {
   "property": "C50",
   "status": "proved",
   "theorems": [
    "C50_simple_ok",
    "C50_simple_err",
    "C50_simple_other",
    "C50_quit",
    "C50_field_list",
    "C50_statistics",
    "C50_debug",
    "C50_debug_err",
    "C50_ping",
    "C50_ping_error_refuted",
    "C50_multi_statements_refuted",
    "C50_multi_statements_err",
    "C50_process_info",
    "C50_process_info_err",
    "C50_change_user",
    "C50_change_user_switch",
    "C50_change_user_unknown",
    "C50_change_user_more_refuted",
    "C50_get_var",
    "C50_get_user_var",
    "C50_set_var",
    "C50_set_user_var",
    "C50_binlog_files"
   ],
   "note": "All commands of Conn except the binlog stream (C43). Findings: ping hides errors, set_multi_stmts inverted, statistics error, change_user panic."
  },
  {
   "property": "C51",
   "status": "proved",
   "theorems": [
    "C51_chunking",
    "C51_reference",
    "C51_dml"
   ],
   "note": "For every composition of the modelled calls; write failures are excluded (the transport accepts output in any portions)."
  },
  {
   "property": "C52",
   "status": "proved",
   "theorems": [
    "C52_cut",
    "C52_dml"
   ],
   "note": "The result set, statement, command, login and stream calls and the dml command. A statement that is executed and closed sends the close message even after a lost connection."
  },
  {
   "property": "C53",
   "status": "proved",
   "theorems": [
    "C53_returns",
    "C53_safe",
    "C53_exec",
    "C53_query",
    "C53_text_rows",
    "C53_binary_rows",
    "C53_login",
    "C53_change_user",
    "C53_event",
    "C53_stream",
    "C53_empty_reply_refuted",
    "C53_null_count_refuted",
    "C53_greeting_refuted",
    "C53_more_data_refuted",
    "C53_event_refuted",
    "C53_exec_exact",
    "C53_stmt_exec_exact",
    "C53_query_exact",
    "C53_stmt_query_exact",
    "C53_row_exact",
    "C53_whole_set_exact",
    "C53_event_exact",
    "C53_login_exact",
    "C53_change_user_exact"
   ],
   "note": "Findings: empty replies, NULL column counts, short greeting seeds, auth data before a switch request and events shorter than their header bring the client down with a panic (C53_*_refuted). C53_*_exact say exactly which sequences of messages bring statements, queries, rows, streams, logins and changes of user down (login and change of user: builds without overflow checks)."
  },
  {
   "property": "C54",
   "status": "proved",
   "theorems": [
    "C54_whole"
   ],
   "note": "For every client program."
  },
  {
   "property": "C55",
   "status": "proved",
   "theorems": [
    "C55_inserts",
    "C55_deletes",
    "C55_updates",
    "C55_log",
    "C55_command",
    "C55_null_key_refuted",
    "C55_no_key_refuted"
   ],
   "note": "Proved for inserts, deletes, updates, whole logs and the dml command; the three exceptions are proved as findings."
  },
  {
   "property": "C56",
   "status": "proved",
   "theorems": [
    "C56_cell",
    "C56_echo",
    "C56_stored",
    "C56_my_datetime_refuted"
   ],
   "note": "End to end through the session; MyDateTime finding included."
  },
  {
   "property": "C57",
   "status": "proved",
   "theorems": [
    "C57_options",
    "C57_classic_refuted",
    "C57_classic_list_refuted"
   ],
   "note": "The exact condition, and the finding as a theorem about every result set of a server without DEPRECATE_EOF."
  },
  {
   "property": "C58",
   "status": "proved",
   "theorems": [
    "C58_list",
    "C58_dml",
    "C58_dml_cut",
    "C58_replay",
    "C58_no_connection",
    "C58_refused",
    "C58_bad_filter",
    "C58_watch",
    "C58_watch_ends",
    "C58_unix_refuted",
    "C58_schedules",
    "C58_lost",
    "C58_returns",
    "C58_failure",
    "C58_endless_refuted"
   ],
   "note": "Regular expressions and digests are parameters (compile, sha1, sha256). The printing of events by mybinmsg is modelled by the list of events; its subscribe and notify settings are not used by the code."
  },
  {
   "property": "C59",
   "status": "proved",
   "theorems": [
    "C59_events",
    "C59_rows",
    "C59_lost",
    "C59_forged_row_refuted",
    "C59_forged_event_refuted",
    "C59_unsent",
    "C59_swallowed_refuted"
   ],
   "note": "drops between messages proved harmless for events and rows; drops inside a message and while sending are findings (_refuted)"
  },
  {
   "property": "C60",
   "status": "proved",
   "theorems": [
    "C60_write_failure",
    "C60_unnoticed_refuted"
   ],
   "note": "all programs; the dropped error of the statement close is the proved exception"
  },
  {
   "property": "C61",
   "status": "proved",
   "theorems": [
    "C61_exact",
    "C61_unique",
    "C61_columns",
    "C61_names",
    "C61_errors"
   ],
   "note": "validation = encodings of scalar values, both directions, plus its uses in columns, names and errors"
  },
  {
   "property": "C62",
   "status": "proved",
   "theorems": [
    "C62_paired",
    "C62_in_order",
    "C62_several_refuted",
    "C62_dropped_refuted"
   ],
   "note": "sequences of any length; several results per statement and undrained result sets are findings"
  },
  {
   "property": "C63",
   "status": "proved",
   "theorems": [
    "C63_cell",
    "C63_agree",
    "C63_table",
    "C63_narrow_refuted",
    "C63_unsigned_refuted",
    "C63_my_datetime_refuted"
   ],
   "note": "Proved for every table and delivery of bytes under a contract for chrono's date parsers, which concrete parsers satisfy. The four exceptions are proved exactly as C63_agree's listed cells and three _refuted theorems. f32 and f64 are left out: their texts are not exact."
  },
  {
   "property": "C64",
   "status": "proved",
   "theorems": [
    "C64_exactly_once",
    "C64_whole_log",
    "C64_catches_up",
    "C64_checksum_off_refuted",
    "C64_checksum_off_panic_refuted",
    "C64_checksum_off_error_refuted",
    "C64_checksum_on_refuted"
   ],
   "note": "the client's bookkeeping and the server are specifications; row events that follow their table map in the log may be delivered in a later session than it, so a client that decodes rows must restart at a table map or transaction"
  },
  {
   "property": "C65",
   "status": "proved",
   "theorems": [
    "C65_calls",
    "C65_answered",
    "C65_user_variable",
    "C65_system_variable",
    "C65_pattern_refuted",
    "C65_assign_refuted"
   ],
   "note": "Names that need no quoting; values asked back as integers, booleans, strings and bytes (floats, dates and times only as far as C65_calls: their text is the server's). The pattern and SQL-injection exceptions are theorems."
  },
  {
   "property": "C66",
   "status": "proved",
   "theorems": [
    "C66_value",
    "C66_exact",
    "C66_dml",
    "C66_limit",
    "C66_cut",
    "C66_unsupported_refuted",
    "C66_altered_refuted"
   ],
   "note": "Row images are full (binlog_row_image=FULL) and the chosen tables have not been altered since; the values admitted are exactly those that come through (C66_exact), SET and JSON columns are the finding of C35."
  },
  {
   "property": "C67",
   "status": "proved",
   "theorems": [
    "C67_value",
    "C67_exact",
    "C67_insert",
    "C67_delete",
    "C67_update"
   ],
   "note": "For all supported column types, rows and values, exactly those that the conversion gets right (C67_exact)."
  },
  {
   "property": "C68",
   "status": "proved",
   "theorems": [
    "C68_read",
    "C68_read_end",
    "C68_read_failed",
    "C68_read_waits",
    "C68_write",
    "C68_write_refuted",
    "C68_write_exact"
   ],
   "note": "Reading for every schedule; writing for writers that take the number at once, which is exact for numbers whose first byte occurs once (C68_write_exact); refuted for the others."
  },
  {
   "property": "C69",
   "status": "proved",
   "theorems": [
    "C69_messages",
    "C69_text_rows",
    "C69_binary_rows",
    "C69_events",
    "C69_requests",
    "C69_rows",
    "C69_cells",
    "C69_update_cells",
    "C69_cells_refuted"
   ],
   "note": "Exact for strings and list elements; for the cells of rows events the quadratic bound and a family of events that is not linear. Memory reserved ahead of reading (Vec::with_capacity) is not part of the decoded value; see C04."
  },
  {
   "property": "C70",
   "status": "proved",
   "theorems": [
    "C70_noticed",
    "C70_noticed_alone",
    "C70_log",
    "C70_stream",
    "C70_length_refuted",
    "C70_longer_refuted"
   ],
   "note": "CRC-32 as written in Spec/BinlogSpec.v"
  },
  {
   "property": "C71",
   "status": "proved",
   "theorems": [
    "C71_login",
    "C71_change_user",
    "C71_tools",
    "C71_native_replay",
    "C71_sha2_replay_refuted"
   ],
   "note": "noninterference for every server and schedule, digests arbitrary; replay resistance of native, replayability of caching_sha2 refuted"
  },
  {
   "property": "C72",
   "status": "proved",
   "theorems": [
    "C72_open_panics",
    "C72_first_event_panics",
    "C72_checksum_panics",
    "C72_table_map_panics",
    "C72_loads",
    "C72_programs",
    "C72_programs_go_on",
    "C72_list",
    "C72_dml",
    "C72_watch",
    "C72_decoders",
    "C72_row_events",
    "C72_texts",
    "C72_decoders_go_on",
    "C72_row_events_go_on",
    "C72_greeting",
    "C72_binary_value",
    "C72_binary_row",
    "C72_skip",
    "C72_event",
    "C72_short_event_refuted",
    "C72_wrapped_refuted",
    "C72_value_panics",
    "C72_rows_panic",
    "C72_update_rows_panic",
    "C72_rows_safe"
   ],
   "note": ""
  },
  {
   "property": "C73",
   "status": "proved",
   "theorems": [
    "C73_executions",
    "C73_own",
    "C73_own_bytes",
    "C73_types_refuted",
    "C73_null_refuted"
   ],
   "note": "all sequences of executions; types remembered per statement; two exceptions as findings"
  },
  {
   "property": "C74",
   "status": "proved",
   "theorems": [
    "C74_application",
    "C74_login",
    "C74_session",
    "C74_no_answers",
    "C74_query"
   ],
   "note": "Digest lengths (20 and 32 bytes) are hypotheses on the external digests."
  },
  {
   "property": "C75",
   "status": "proved",
   "theorems": [
    "C75_length_encoded",
    "C75_packet",
    "C75_greeting",
    "C75_ok_err_eof",
    "C75_login_reply",
    "C75_command_replies",
    "C75_definitions",
    "C75_text_row",
    "C75_binary_row",
    "C75_one_reading"
   ],
   "note": "equivalences: a decoder returns a value exactly for the byte strings of its layout; refused otherwise"
  },
  {
   "property": "C76",
   "status": "proved",
   "theorems": [
    "C76_header",
    "C76_version",
    "C76_first_event",
    "C76_event",
    "C76_gtid",
    "C76_query",
    "C76_rows",
    "C76_loads",
    "C76_small",
    "C76_open",
    "C76_file",
    "C76_checksum"
   ],
   "note": "exact: both directions for every decoder named"
  },
  {
   "property": "C77",
   "status": "proved",
   "theorems": [
    "C77_table_map",
    "C77_times",
    "C77_decimal",
    "C77_value",
    "C77_image",
    "C77_rows"
   ],
   "note": "exact: both directions for every decoder named"
  },
  {
   "property": "C78",
   "status": "proved",
   "theorems": [
    "C78_variables",
    "C78_binlog_files",
    "C78_set_variables",
    "C78_request_stream",
    "C78_stream_refusal_lost",
    "C78_login",
    "C78_login_refusal_lost",
    "C78_change_user",
    "C78_simple",
    "C78_other",
    "C78_exec",
    "C78_query",
    "C78_prepare",
    "C78_fields",
    "C78_rows",
    "C78_events",
    "C78_unambiguous"
   ],
   "note": "Exact replies of the commands, statements, queries, preparation, field lists, rows, events, logins, changes of user, variables, binlog files and stream requests.  For logins, changes of user and stream requests the packet numbers wrap around as in a release build; other arithmetic is checked."
  },
  {
   "property": "C79",
   "status": "proved",
   "theorems": [
    "C79_greeting",
    "C79_events",
    "C79_file",
    "C79_login",
    "C79_request_stream",
    "C79_next_event",
    "C79_rows",
    "C79_same_events",
    "C79_same_greetings",
    "C79_same_first_events",
    "C79_with_checks",
    "C79_table_map",
    "C79_values",
    "C79_images",
    "C79_row_events",
    "C79_same_values",
    "C79_same_decimals"
   ],
   "note": "The build without overflow checks of Model/Release.v: exact layouts of greetings, events and files, exact reports of logins, stream requests and events, and where they differ from the build with checks."
  }
 ]
}