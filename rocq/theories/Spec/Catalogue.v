(** * Specification: which decoders there are, and the inputs on which some of them panic

    A decoder takes the bytes received and leaves those it did not use. *)
From Coq Require Import List NArith ZArith Arith Bool.
From Verif Require Import Model.Base Model.BytesParser Model.LenEnc Model.Utf8 Model.Flags Model.Packet Model.Cmd Model.Time
  Model.Decimal Model.Col Model.Row Model.Rows Model.Event Model.EventBody Model.Stmt Model.Session
  Spec.Nums Spec.Wire Spec.BitmapSpec Spec.DecimalSpec Spec.Decoders.
Import ListNotations.
Open Scope N_scope.

(** the result depends on the bytes consumed only: followed by anything else they give the same
    value, and the rest is left alone *)
Definition self_contained {A} (p : parser A) : Prop :=
  forall used rest ext a, p (used ++ rest) = (Ok a, rest) -> p (used ++ ext) = (Ok a, ext).

(** ** Decoders of replies, values and events that know where they end *)
Inductive self_delimiting : forall {A}, parser A -> Prop :=
(* integers and strings *)
| sd_u8 : self_delimiting read_u8
| sd_i8 : self_delimiting read_i8
| sd_le_u16 : self_delimiting read_le_u16
| sd_le_i16 : self_delimiting read_le_i16
| sd_be_u16 : self_delimiting read_be_u16
| sd_be_i16 : self_delimiting read_be_i16
| sd_le_u24 : self_delimiting read_le_u24
| sd_le_i24 : self_delimiting read_le_i24
| sd_be_u24 : self_delimiting read_be_u24
| sd_be_i24 : self_delimiting read_be_i24
| sd_le_u32 : self_delimiting read_le_u32
| sd_le_i32 : self_delimiting read_le_i32
| sd_be_u32 : self_delimiting read_be_u32
| sd_be_i32 : self_delimiting read_be_i32
| sd_be_u40 : self_delimiting read_be_u40
| sd_be_i40 : self_delimiting read_be_i40
| sd_le_u48 : self_delimiting read_le_u48
| sd_le_i48 : self_delimiting read_le_i48
| sd_le_u64 : self_delimiting read_le_u64
| sd_le_i64 : self_delimiting read_le_i64
| sd_le_u128 : self_delimiting read_le_u128
| sd_le_i128 : self_delimiting read_le_i128
| sd_le_f32 : self_delimiting read_le_f32
| sd_le_f64 : self_delimiting read_le_f64
| sd_len n : self_delimiting (read_len n)
| sd_until b i : self_delimiting (read_until b i)
| sd_len_enc_int : self_delimiting read_len_enc_int
| sd_len_enc_str : self_delimiting read_len_enc_str
(* packets *)
| sd_packet : self_delimiting read_packet
| sd_eof cap : self_delimiting (read_eof_packet cap)
| sd_ok cap : contains cap SESSION_TRACK = true -> self_delimiting (read_ok_packet cap)
| sd_greeting : self_delimiting read_initial_handshake
| sd_column_def fl : self_delimiting (read_column_def fl)
| sd_prepare_ok : self_delimiting read_stmt_prepare_ok
| sd_dump_gtid : self_delimiting read_binlog_dump_gtid
(* rows and values of result sets *)
| sd_text_row n : self_delimiting (read_text_row n)
| sd_binary_value ct : self_delimiting (read_binary_value ct)
| sd_binary_row cts : self_delimiting (read_binary_row cts)
(* binlog values; a DECIMAL reads the end of the input as zero *)
| sd_binlog_value m : (forall prec frac, m <> MNewDecimal prec frac) -> self_delimiting (read_binlog_value m)
| sd_column_meta ct : self_delimiting (read_column_meta ct)
(* binlog events *)
| sd_event_type : self_delimiting read_event_type
| sd_event_length : self_delimiting read_event_length
| sd_header : self_delimiting read_event_header
| sd_header_v1 : self_delimiting read_event_header_v1
| sd_start : self_delimiting read_start_data
| sd_event crc self validate : self_delimiting (parse_event crc self validate)
| sd_skip self : self_delimiting (skip_event self)
| sd_from_fde : self_delimiting from_fde_bytes
| sd_from_file : self_delimiting from_binlog_file
| sd_incident : self_delimiting read_incident
| sd_intvar : self_delimiting read_intvar
| sd_rand : self_delimiting read_rand
| sd_xid : self_delimiting read_xid
| sd_exec_load : self_delimiting read_exec_load
| sd_delete_file : self_delimiting read_delete_file
| sd_gtid_set : self_delimiting read_gtid_set
| sd_status_var : self_delimiting read_status_var
| sd_raw_table_map : self_delimiting read_raw_table_map.

(** ** Decoders whose last field takes the rest of the input, or that look how much is left *)
Inductive open_ended : forall {A}, parser A -> Prop :=
| oe_ok cap : open_ended (read_ok_packet cap)
| oe_err cap sql : open_ended (read_err_packet cap sql)
| oe_switch : open_ended read_auth_switch
| oe_more : open_ended read_auth_more
| oe_handshake_message cap : open_ended (read_handshake_message cap)
| oe_com_response cap : open_ended (read_com_response cap)
| oe_field_list cap sql : open_ended (read_field_list_response cap sql)
| oe_debug cap : open_ended (read_debug_response cap)
| oe_set_option cap : open_ended (read_set_option_response cap)
| oe_change_user cap : open_ended (read_change_user_response cap)
| oe_dump : open_ended read_binlog_dump
| oe_gtid : open_ended read_gtid_log
| oe_anonymous_gtid : open_ended read_anonymous_gtid_log
| oe_previous_gtids : open_ended read_previous_gtids
| oe_rotate : open_ended read_rotate
| oe_user_var : open_ended read_user_var
| oe_user_var_value : open_ended read_user_var_value
| oe_create_file : open_ended read_create_file
| oe_append_block : open_ended read_append_block
| oe_begin_load_query : open_ended read_begin_load_query
| oe_execute_load_query : open_ended read_execute_load_query
| oe_query : open_ended read_query_data
| oe_status_vars : open_ended read_status_vars
| oe_table_map : open_ended read_table_map_data
| oe_write_rows_v1 : open_ended read_write_rows_v1
| oe_update_rows_v1 : open_ended read_update_rows_v1
| oe_delete_rows_v1 : open_ended read_delete_rows_v1
| oe_write_rows_v2 : open_ended read_write_rows_v2
| oe_update_rows_v2 : open_ended read_update_rows_v2
| oe_delete_rows_v2 : open_ended read_delete_rows_v2
| oe_decimal prec frac : open_ended (read_binlog_value (MNewDecimal prec frac))
| oe_load : open_ended read_load
| oe_new_load : open_ended read_new_load
| oe_fde : open_ended read_fde
| oe_version : open_ended read_binlog_version
| oe_metas n defs : open_ended (read_column_metas n defs)
| oe_log_row n bm ms : open_ended (read_log_row n bm ms)
| oe_rows len ms : open_ended (read_rows_v2 len ms)
| oe_update_rows len ms : open_ended (read_update_rows len ms).

(** ** Decoders that are meant to be, and are, free of panics *)
Inductive panic_free : forall {A}, parser A -> Prop :=
| pf_u8 : panic_free read_u8
| pf_i8 : panic_free read_i8
| pf_le_u16 : panic_free read_le_u16
| pf_le_i16 : panic_free read_le_i16
| pf_be_u16 : panic_free read_be_u16
| pf_be_i16 : panic_free read_be_i16
| pf_le_u24 : panic_free read_le_u24
| pf_le_i24 : panic_free read_le_i24
| pf_be_u24 : panic_free read_be_u24
| pf_be_i24 : panic_free read_be_i24
| pf_le_u32 : panic_free read_le_u32
| pf_le_i32 : panic_free read_le_i32
| pf_be_u32 : panic_free read_be_u32
| pf_be_i32 : panic_free read_be_i32
| pf_be_u40 : panic_free read_be_u40
| pf_be_i40 : panic_free read_be_i40
| pf_le_u48 : panic_free read_le_u48
| pf_le_i48 : panic_free read_le_i48
| pf_le_u64 : panic_free read_le_u64
| pf_le_i64 : panic_free read_le_i64
| pf_le_u128 : panic_free read_le_u128
| pf_le_i128 : panic_free read_le_i128
| pf_le_f32 : panic_free read_le_f32
| pf_len n : panic_free (read_len n)
| pf_until b i : panic_free (read_until b i)
| pf_len_enc_int : panic_free read_len_enc_int
| pf_len_enc_str : panic_free read_len_enc_str
| pf_packet : panic_free read_packet
| pf_ok cap : panic_free (read_ok_packet cap)
| pf_err cap sql : panic_free (read_err_packet cap sql)
| pf_eof cap : panic_free (read_eof_packet cap)
| pf_switch : panic_free read_auth_switch
| pf_more : panic_free read_auth_more
| pf_handshake_message cap : panic_free (read_handshake_message cap)
| pf_com_response cap : panic_free (read_com_response cap)
| pf_field_list cap sql : panic_free (read_field_list_response cap sql)
| pf_debug cap : panic_free (read_debug_response cap)
| pf_set_option cap : panic_free (read_set_option_response cap)
| pf_change_user cap : panic_free (read_change_user_response cap)
| pf_column_def fl : panic_free (read_column_def fl)
| pf_prepare_ok : panic_free read_stmt_prepare_ok
| pf_dump : panic_free read_binlog_dump
| pf_event_type : panic_free read_event_type
| pf_event_length : panic_free read_event_length
| pf_header : panic_free read_event_header
| pf_header_v1 : panic_free read_event_header_v1
| pf_start : panic_free read_start_data
| pf_version : panic_free read_binlog_version
| pf_gtid : panic_free read_gtid_log
| pf_anonymous_gtid : panic_free read_anonymous_gtid_log
| pf_previous_gtids : panic_free read_previous_gtids
| pf_incident : panic_free read_incident
| pf_intvar : panic_free read_intvar
| pf_rand : panic_free read_rand
| pf_rotate : panic_free read_rotate
| pf_xid : panic_free read_xid
| pf_user_var : panic_free read_user_var
| pf_user_var_value : panic_free read_user_var_value
| pf_create_file : panic_free read_create_file
| pf_append_block : panic_free read_append_block
| pf_exec_load : panic_free read_exec_load
| pf_delete_file : panic_free read_delete_file
| pf_begin_load_query : panic_free read_begin_load_query
| pf_execute_load_query : panic_free read_execute_load_query
| pf_query : panic_free read_query_data
| pf_status_vars : panic_free read_status_vars
| pf_table_map : panic_free read_table_map_data
| pf_write_rows_v1 : panic_free read_write_rows_v1
| pf_update_rows_v1 : panic_free read_update_rows_v1
| pf_delete_rows_v1 : panic_free read_delete_rows_v1
| pf_write_rows_v2 : panic_free read_write_rows_v2
| pf_update_rows_v2 : panic_free read_update_rows_v2
| pf_delete_rows_v2 : panic_free read_delete_rows_v2.

(** ** The others: exactly when a call panics *)
(** a call returns a value or an error *)
Definition returns {A} (r : res A) : Prop := (exists a, r = Ok a) \/ (exists e, r = Err e).

(** the call panics with [w] exactly when [P w], and otherwise returns *)
Definition panics_exactly {A} (r : res A) (P : panic -> Prop) : Prop :=
  (forall w, r = Panic w <-> P w) /\ r <> Loop.

(** a value in the binary protocol: a DOUBLE cut short *)
Definition binary_value_panics (ct : column_type) (bs : bytes) : Prop :=
  ct = TDouble /\ (5 <= length bs <= 7)%nat.

(** the digits that do not fill a group of nine, at the end of a DECIMAL: their bytes as a number *)
Definition last_group (neg : bool) (last : bytes) : N :=
  be_val (if neg then map complement last else last).
(** a column value in a row event *)
Inductive value_panics : column_meta -> bytes -> panic -> Prop :=
| vp_old_decimal bs : value_panics MDecimal bs PUnimplemented
| vp_geometry n bs : value_panics (MGeometry n) bs PUnimplemented
| vp_double n bs : (5 <= length bs <= 7)%nat -> value_panics (MDouble n) bs PArith
(* a DATETIME of zero bytes only *)
| vp_datetime frac rest : frac <= 6 ->
    value_panics (MDateTime frac) (repeat x00 (5 + N.to_nat ((frac + 1) / 2)) ++ rest) PArith
| vp_bit bits n bs : 256 <= n + (if 0 <? bits then 1 else 0) -> value_panics (MBit bits n) bs PArith
| vp_precision prec frac bs : prec < frac -> value_panics (MNewDecimal prec frac) bs PAssert
(* the left-over digits of a fraction are scaled to nine digits in 32 bits; [head]: the groups before *)
| vp_decimal prec frac head last rest : frac <= prec -> frac mod 9 <> 0 ->
    length head = list_sum (int_widths (prec - frac) ++ repeat 4%nat (N.to_nat (frac / 9))) ->
    length last = dig_bytes (frac mod 9) ->
    2 ^ 32 <= last_group (negb (N.testbit (b2n (hd x00 (head ++ last))) 7)) last * 10 ^ (9 - frac mod 9) ->
    value_panics (MNewDecimal prec frac) (head ++ last ++ rest) PArith
| vp_blob n bs : ~ (1 <= n <= 4) -> value_panics (MBlob n) bs PUnreachable
| vp_varchar max b rest : max < 256 -> max < b2n b -> value_panics (MVarString max) (b :: rest) PAssert
| vp_long_varchar max b0 b1 rest : 256 <= max -> max < le_val [b0; b1] ->
    value_panics (MVarString max) (b0 :: b1 :: rest) PAssert.

(** [tail] is a final part of [bs] *)
Definition final_part (tail bs : bytes) : Prop := exists front, bs = front ++ tail.
(** the number of columns announced after the extra data of a row event (kept modulo 2^32) *)
Definition announces (extra_len : N) (payload : bytes) (n : N) (rest : bytes) : Prop :=
  exists extra w v, N.of_nat (length extra) + 2 = extra_len /\ payload = extra ++ w ++ rest /\
    dlenenc w = Some (v, []) /\ n = v mod 2 ^ 32.
(** the bitmap says that none of [n] columns is present *)
Definition none_present (n : N) (bm : bytes) : Prop :=
  N.of_nat (length bm) = (n + 7) / 8 /\ forall i, (i < N.to_nat n)%nat -> bit bm i = false.
Definition row_event_panics (extra_len : N) (payload : bytes) (metas : list column_meta) (w : panic) : Prop :=
  (w = PArith /\ extra_len < 2) \/
  (exists n rest, announces extra_len payload n rest /\
     ((w = PArith /\ 2 ^ 32 - 7 <= n) \/ (w = PIndex /\ N.of_nat (length metas) < n))) \/
  (exists m tail, In m metas /\ final_part tail payload /\ value_panics m tail w).

(** the server's greeting: a server that announces secure connections and fewer than eight bytes of
    authentication data.  Version, NUL-terminated server version, then 31 bytes: connection id (4),
    data (8), filler (1), capabilities (2, bit 15: secure connection), character set (1), status (2),
    upper capabilities (2), length of the data (1), filler (10) *)
Definition short_auth_data (bs : bytes) : Prop :=
  exists version server fixed post, bs = version :: server ++ x00 :: fixed ++ post /\ ~ In x00 server /\
    length fixed = 31%nat /\ N.testbit (b2n (nth 14 fixed x00)) 7 = true /\ b2n (nth 20 fixed x00) < 8.

(** the length an event announces: bytes 9 to 12 *)
Definition announced_length (bs : bytes) : N := le_val (firstn 4 (skipn 9 bs)).

(** the data of a format description event: binlog version (2), NUL-padded server version (50), time
    (4), header length (1), then the post-header lengths, the fifteenth of them its own (at least 57) *)
Inductive fde_panics : bytes -> panic -> Prop :=
| fp_few a server pad c r : length a = 2%nat -> length (server ++ x00 :: pad) = 50%nat -> length c = 5%nat ->
    ~ In x00 server -> utf8_valid server = true -> (length r < 15)%nat ->
    fde_panics (a ++ (server ++ x00 :: pad) ++ c ++ r) PIndex
| fp_own a server pad c r : length a = 2%nat -> length (server ++ x00 :: pad) = 50%nat -> length c = 5%nat ->
    ~ In x00 server -> utf8_valid server = true -> (15 <= length r)%nat -> b2n (nth 14 r x00) < 57 ->
    fde_panics (a ++ (server ++ x00 :: pad) ++ c ++ r) PArith
| fp_many a server pad c r : length a = 2%nat -> length (server ++ x00 :: pad) = 50%nat -> length c = 5%nat ->
    ~ In x00 server -> utf8_valid server = true -> (15 <= length r)%nat -> 57 <= b2n (nth 14 r x00) ->
    N.of_nat (length r) < b2n (nth 14 r x00) - 57 ->
    fde_panics (a ++ (server ++ x00 :: pad) ++ c ++ r) PIndex.

(** a column of a table map whose metadata are not supported: TIMESTAMP, TIME, DATETIME (the types
    before fractional seconds) and CHAR (whose metadata may name another type) *)
Definition unsupported_column (code : byte) : Prop := In (b2n code) [7; 11; 12; 254].

(** the column types a table map lists: the length and bytes of the schema name, a filler byte, the
    same for the table name, then the number of columns and one byte for each *)
Definition lists_columns (payload cols : bytes) : Prop :=
  exists n1 schema f1 n2 table f2 count rest,
    payload = n1 :: schema ++ f1 :: n2 :: table ++ f2 :: count ++ cols ++ rest /\
    N.of_nat (length schema) = b2n n1 /\ N.of_nat (length table) = b2n n2 /\
    dlenenc count = Some (N.of_nat (length cols), []).

(** somewhere in [bs] there is an eight-byte count of at least 2^57 *)
Definition huge_count (bs : bytes) : Prop :=
  exists front count rest, bs = front ++ count ++ rest /\ length count = 8%nat /\ 2 ^ 57 <= le_val count.

(** a LOAD event: 25 bytes, of which the last 11 start with the number of fields (4), the length of the
    name of each field, and the rest *)
Definition load_too_long (bs : bytes) : Prop :=
  exists a count b lens rest, bs = a ++ count ++ b ++ lens ++ rest /\ length a = 14%nat /\ length count = 4%nat /\
    length b = 7%nat /\ N.of_nat (length lens) = le_val count /\
    2 ^ 32 <= fold_right (fun l sum => b2n l + sum) 0 lens + N.of_nat (length lens).
