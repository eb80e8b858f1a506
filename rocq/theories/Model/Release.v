(** * The code as cargo's release profile compiles it: without overflow checks and debug assertions

    The other files of the model have the panics of a build with overflow checks and [debug_assert!] (cargo's dev and
    test profiles; no manifest in /repo changes a profile).  A release build wraps around instead and drops the
    assertions.  Here are the functions in which that matters, and their callers up to the public functions and the
    two programs; each is written as in the file named, with the wrapping operations below.  All other functions
    compile to the same thing in both profiles.  Functions on connections have a parameter [checks] already, which
    is [false] here. *)
From Coq Require Import Strings.String.
From Verif Require Import Model.Base Model.BytesParser Model.LenEnc Model.Utf8 Model.Flags Model.Fmt Model.Time Model.Decimal
  Model.Bitmap Model.Cmd Model.Col Model.Row Model.Packet Model.Conn Model.Auth Model.Stmt Model.Extract Model.Session
  Model.Event Model.EventBody Model.Rows Model.Stream Model.Transform Model.MyBinlog Model.Tools.
Open Scope N_scope.

(** [a + b], [a * b] and [a - b] on an unsigned type of [k] bits, for operands of that type *)
Definition wadd (k a b : N) : N := (a + b) mod 2 ^ k.
Definition wmul (k a b : N) : N := (a * b) mod 2 ^ k.
Definition rsub (k a b : N) : N := if a <? b then 2 ^ k + a - b else a - b.
(** a result of [i32] arithmetic *)
Definition wrap_i32 (z : Z) : Z := to_signed 32 (to_unsigned 32 z).

(** ** bytes-parser/src/lib.rs *)
(** lib.rs:256-264: [4 - remaining] is a usize *)
Definition read_le_f64_rel : parser N := fun bs =>
  if (length bs <? 8)%nat
  then (Err (EIncomplete (Some (rsub 64 4 (blen bs)))), bs)
  else (pmap get_le (take 8)) bs.

(** ** handshake.rs:25-67; [auth_plugin_data_length - 8] is a u8 *)
Definition read_initial_handshake_rel : parser initial_handshake :=
  version <- read_u8 ;;
  server_version <- read_until x00 false ;;
  connection_id <- read_le_u32 ;;
  data_1 <- read_len 8 ;;
  _ <- read_len 1 ;;
  cap_lower <- read_le_u16 ;;
  charset <- read_u8 ;;
  status <- read_le_u16 ;;
  cap_upper <- read_le_u16 ;;
  auth_len <- read_u8 ;;
  _ <- read_len 10 ;;
  let capabilities := N.lor cap_lower (N.shiftl cap_upper 16) in
  let cap := from_bits_truncate all_capabilities capabilities in
  data_2 <- (if contains cap SECURE_CONNECTION
             then read_len (N.max 13 (rsub 8 auth_len 8))
             else pret []) ;;
  plugin <- (if contains cap PLUGIN_AUTH
             then (apn <- read_until x00 false ;; plift (from_utf8 apn))
             else pret []) ;;
  pret (mk_hs version server_version connection_id data_1 charset status capabilities auth_len data_2 plugin).

(** ** time.rs *)
(** [(-(p as i64)) as u64] *)
Definition neg64_rel (p : N) : N := (2 ^ 64 - p) mod 2 ^ 64.
(** time.rs:213-250 *)
Definition packed_from_time_binary_rel (frac : N) : parser (N * bool) :=
  hms <- read_be_u24 ;;
  let negative := negb (N.land hms 0x800000 =? 0x800000) in
  packed <- match frac with
    | 0 =>
        let int_part := wsub 32 hms 0x800000 in
        pret (N.shiftl int_part 24)
    | 1 | 2 =>
        let int_part := wsub 32 hms 0x800000 in
        frac_part <- read_u8 ;;
        pret (N.shiftl int_part 24 + frac_part * 10000)
    | 3 | 4 =>
        let int_part := wsub 32 hms 0x800000 in
        frac_part <- read_be_u16 ;;
        pret (N.shiftl int_part 24 + frac_part * 100)
    | 5 | 6 =>
        frac_part <- read_be_u24 ;;
        pret (wsub 64 (N.shiftl hms 24 + frac_part) 0x800000000000)
    | _ => pfail EConstraint
    end ;;
  pret (if negative then neg64_rel packed else packed, negative).
(** time.rs:28-45 *)
Definition time_from_binlog_rel (frac : N) : parser my_time :=
  ' (packed, negative) <- packed_from_time_binary_rel frac ;;
  let hms := N.land (N.shiftr packed 24) 0xffffff in
  let hours := N.shiftr hms 12 mod N.shiftl 1 10 in
  let days := hours / 24 in
  let hour := trunc 8 (hours - days * 24) in
  let minute := trunc 8 (N.shiftr hms 6 mod N.shiftl 1 6) in
  let second := trunc 8 (hms mod N.shiftl 1 6) in
  let micro_second := N.land packed 0xffffff in
  pret (mk_time negative days hour minute second micro_second).
(** time.rs:253-291 *)
Definition packed_from_datetime_binary_rel (frac : N) : parser N :=
  ymdhms <- read_be_u40 ;;
  let negative := negb (N.land ymdhms 0x8000000000 =? 0x8000000000) in
  let int_part := wsub 64 ymdhms 0x8000000000 in
  packed <- match frac with
    | 0 => pret (trunc 64 (N.shiftl int_part 24))
    | 1 | 2 =>
        frac_part <- read_u8 ;;
        pret (wadd 64 (trunc 64 (N.shiftl int_part 24)) (frac_part * 10000))
    | 3 | 4 =>
        frac_part <- read_be_u16 ;;
        pret (wadd 64 (trunc 64 (N.shiftl int_part 24)) (frac_part * 100))
    | 5 | 6 =>
        frac_part <- read_be_u24 ;;
        pret (wadd 64 (trunc 64 (N.shiftl int_part 24)) frac_part)
    | _ => pfail EConstraint
    end ;;
  pret (if negative then neg64_rel packed else packed).
(** time.rs:128-150 *)
Definition datetime_from_binlog_rel (frac : N) : parser my_datetime :=
  packed <- packed_from_datetime_binary_rel frac ;;
  let ymdhms := N.land (N.shiftr packed 24) 0xffffffffff in
  let ymd := N.shiftr ymdhms 17 in
  let ym := N.shiftr ymd 5 in
  let hms := ymdhms mod N.shiftl 1 17 in
  let day := trunc 8 (ymd mod N.shiftl 1 5) in
  let month := trunc 8 (ym mod 13) in
  let year := trunc 16 (ym / 13) in
  let hour := trunc 8 (N.shiftr hms 12) in
  let minute := trunc 8 (N.shiftr hms 6 mod N.shiftl 1 6) in
  let second := trunc 8 (hms mod N.shiftl 1 6) in
  let micro_second := N.land packed 0xffffff in
  pret (mk_dt year month day hour minute second micro_second).
(** time.rs:60-109; [i64::abs] of the smallest value is that value, whose low 32 bits are zero *)
Definition time_from_text_rel (bs : bytes) : res my_time :=
  rbind (from_utf8 bs) (fun s =>
  let s := trim_start s in
  match split_on (n2b 58) s with
  | [p0; p1; p2] =>
      rbind (parse_i 64 p0) (fun hours =>
      let negative := (hours <? 0)%Z in
      let hours := trunc 32 (Z.abs_N hours) in
      let days := hours / 24 in
      let hour := trunc 8 (hours - days * 24) in
      rbind (parse_u 8 p1) (fun minute =>
      match split_on (n2b 46) p2 with
      | [s0] => rbind (parse_u 8 s0) (fun second => Ok (mk_time negative days hour minute second 0))
      | [s0; s1] =>
          rbind (parse_u 8 s0) (fun second =>
          rbind (if (length s1 =? 3)%nat
                 then rmap (fun ms => wmul 32 ms 1000) (parse_u 32 s1)
                 else parse_u 32 s1) (fun micro =>
          Ok (mk_time negative days hour minute second micro)))
      | _ => Err EParseValue
      end))
  | _ => Err EParseValue
  end).

(** ** decimal.rs:42-95 *)
Definition read_decimal_rel (intg frac : N) : parser my_decimal :=
  let intg0 := intg / DIG_PER_DEC1 in
  let frac0 := frac / DIG_PER_DEC1 in
  let intg0x := intg - intg0 * DIG_PER_DEC1 in
  let frac0x := frac - frac0 * DIG_PER_DEC1 in
  intg_len <- plift (tget DIG_TO_BYTES intg0x) ;;
  frac_len <- plift (tget DIG_TO_BYTES frac0x) ;;
  fun bs =>
  match bs with
  | [] => (Ok (dec_zero intg frac), bs)
  | b0 :: _ =>
      let negative := negb (N.land (b2n b0) 0x80 =? 0x80) in
      (a <- (if 0 <? intg0x then f <- read_extra_fragment true intg_len negative ;; pret [f] else pret []) ;;
       b <- prepeat (N.to_nat intg0) (read_fragment negative) ;;
       c <- prepeat (N.to_nat frac0) (read_fragment negative) ;;
       d <- (if 0 <? frac0x
             then f <- read_extra_fragment false frac_len negative ;;
                  p <- plift (tget POWERS_10 (DIG_PER_DEC1 - frac0x)) ;;
                  pret [wmul 32 f p]
             else pret []) ;;
       pret (mk_dec intg frac negative (a ++ b ++ c ++ d))) bs
  end.

(** ** col.rs *)
(** col.rs:376-618: only DOUBLE differs *)
Definition read_binary_value_rel (ct : column_type) : parser binary_value :=
  match ct with
  | TDouble => pmap BDouble read_le_f64_rel
  | _ => read_binary_value ct
  end.
(** col.rs:802-946: the types that differ *)
Definition read_binlog_value_rel (m : column_meta) : parser binlog_value :=
  match m with
  | MDouble _ => pmap LDouble read_le_f64_rel
  | MTime2 frac => pmap LTime (time_from_binlog_rel frac)
  | MDateTime frac => pmap LDateTime (datetime_from_binlog_rel frac)
  | MBit bits bytes => pmap LBit (read_len (wadd 8 bytes (if 0 <? bits then 1 else 0)))
  | MNewDecimal prec frac => pmap LNewDecimal (read_decimal_rel (rsub 8 prec frac) frac)
  | MVarString max_len =>
      actual_len <- (if max_len <? 256 then read_u8 else read_le_u16) ;;
      pmap LVarString (read_len actual_len)
  | _ => read_binlog_value m
  end.

(** ** row.rs *)
(** row.rs:43-50 *)
Fixpoint read_binary_cols_rel (cts : list column_type) (bits : bytes) (idx : nat) : parser (list binary_value) :=
  match cts with
  | [] => pret []
  | ct :: cts =>
      o <- plift (bm_next bits idx) ;;
      match o with
      | None => pret []
      | Some null =>
          v <- (if (null : bool) then pret BNull else read_binary_value_rel ct) ;;
          vs <- read_binary_cols_rel cts bits (S idx) ;;
          pret (v :: vs)
      end
  end.
(** row.rs:36-54 *)
Definition read_binary_row_rel (cts : list column_type) : parser (list binary_value) :=
  read_u8 ;;;
  let bitmap_len := N.shiftr (N.of_nat (length cts) + 7 + 2) 3 in
  null_bitmap <- read_len bitmap_len ;;
  read_binary_cols_rel cts null_bitmap 2.
(** resultset.rs:229-243, as [binary_rows] *)
Definition binary_rows_rel (rs : result_set) : parser (list binary_value) := read_binary_row_rel (rs_col_types rs).
(** row.rs:66-75 *)
Fixpoint read_log_cols_rel (n i : nat) (col_bm : bytes) (metas : list column_meta) : parser (list binlog_value) :=
  match n with
  | O => pret []
  | S n =>
      present <- plift (bm_index col_bm i) ;;
      v <- (if (present : bool)
            then match nth_error metas i with
                 | Some m => read_binlog_value_rel m
                 | None => ppanic PIndex
                 end
            else pret LNull) ;;
      vs <- read_log_cols_rel n (S i) col_bm metas ;;
      pret (v :: vs)
  end.
(** row.rs:59-77 *)
Definition read_log_row_rel (n_cols : N) (col_bm : bytes) (metas : list column_meta) : parser (list binlog_value) :=
  plift (with_capacity 40 n_cols) ;;; read_log_cols_rel (N.to_nat n_cols) 0 col_bm metas.

(** ** binlog/{header,fde,parser}.rs *)
(** header.rs:71-76, a u32 *)
Definition data_len_rel (h : event_header) : N := rsub 32 (h_event_len h) 19.
(** fde.rs:52-98; [input[14] - 57] is a u8 *)
Definition read_fde_rel : parser fde_data :=
  st <- read_start_data ;;
  header_length <- read_u8 ;;
  own <- (fun bs => (bget bs (N.to_nat (event_type_code EtFormatDescription) - 1), bs)) ;;
  let fde_post_header_len := rsub 8 (b2n own) 57 in
  remaining <- premaining ;;
  if remaining =? fde_post_header_len
  then
    post_header_lengths <- read_rest ;;
    pret (mk_fde (st_binlog_version st) (st_server_version st) (st_create_timestamp st) header_length
            post_header_lengths 0)
  else
    post_header_lengths <- split_to fde_post_header_len ;;
    checksum_flag <- read_u8 ;;
    pret (mk_fde (st_binlog_version st) (st_server_version st) (st_create_timestamp st) header_length
            post_header_lengths checksum_flag).
(** parser.rs:94-110 *)
Definition from_fde_bytes_rel : parser (parser_v4 * option N) :=
  header <- read_event_header ;;
  raw_data <- read_len (data_len_rel header) ;;
  let '(r, raw_rest) := read_fde_rel raw_data in
  data <- plift r ;;
  crc32 <- (if fde_checksum_flag data =? 1
            then if blen raw_rest <? 4 then pfail EBinlogEvent
                 else c <- plift (fst (read_le_u32 raw_rest)) ;; pret (Some c)
            else pret None) ;;
  pret (from_fde data, crc32).
(** parser.rs:79-89 *)
Definition from_binlog_file_rel : parser parser_v4 :=
  v <- read_binlog_version ;;
  match v with
  | V4 => ' (pv4, _) <- from_fde_bytes_rel ;; pret pv4
  | _ => pfail EBinlogFormat
  end.
(** [bs.split_off(bs.remaining() - 4)] with a usize that may have wrapped: the front and the back, and a panic
    beyond the end *)
Definition split_last4 (bs : bytes) : res (bytes * bytes) :=
  let n := rsub 64 (blen bs) 4 in
  if blen bs <? n then Panic PIndex else Ok (split_at n bs).
(** [bs.truncate(bs.remaining() - 4)]: no effect beyond the end *)
Definition drop_last4 (bs : bytes) : bytes :=
  let n := rsub 64 (blen bs) 4 in
  if blen bs <? n then bs else fst (split_at n bs).
(** parser.rs:117-128 *)
Definition check_checksum_rel (crc : bytes -> N) : parser unit :=
  header <- ppeek read_event_header ;;
  raw_data <- ppeek (read_len (h_event_len header)) ;;
  ' (raw_data, checksum_data) <- plift (split_last4 raw_data) ;;
  expected <- plift (fst (read_le_u32 checksum_data)) ;;
  let actual := crc raw_data in
  if expected =? actual then pret tt else pfail (EChecksum expected actual).
(** parser.rs:116-198 *)
Definition parse_event_rel (crc : bytes -> N) (self : parser_v4) (validate_checksum : bool) : parser (option event) :=
  (if p_checksum self && validate_checksum then check_checksum_rel crc else pret tt) ;;;
  header <- read_event_header ;;
  data <- read_len (data_len_rel header) ;;
  let data := if p_checksum self then drop_last4 data else data in
  match event_kind_of (h_type header) with
  | Some k => pret (Some (mk_event k header data))
  | None => pret None
  end.
(** parser.rs:200-204 *)
Definition skip_event_rel (self : parser_v4) : parser unit :=
  header <- read_event_header ;;
  read_len (data_len_rel header) ;;; pret tt.
(** parser.rs:206-222 *)
Definition checksum_event_rel (crc : bytes -> N) (self : parser_v4) (input : bytes) : res unit :=
  if negb (p_checksum self) then Err EBinlogFormat
  else
    rbind (fst (read_event_header input)) (fun header =>
    rbind (fst (read_len (h_event_len header) input)) (fun raw_data =>
    rbind (split_last4 raw_data) (fun p =>
    let '(raw_data, checksum_data) := p in
    rbind (fst (read_le_u32 checksum_data)) (fun expected =>
    let actual := crc raw_data in
    if expected =? actual then Ok tt else Err (EChecksum expected actual))))).

(** ** binlog/load.rs *)
(** load.rs:48-49 and 205-206: sums of u32 *)
Definition sum_u32_rel (lens : bytes) : N := fold_left (fun acc l => wadd 32 acc (b2n l)) lens 0.
(** load.rs:47-56 and 204-213 *)
Definition read_load_names_rel (table_name_len schema_len num_fields : N) : parser (bytes * bytes * bytes * bytes * bytes) :=
  field_name_lengths <- read_len num_fields ;;
  field_names <- read_len (wadd 32 (sum_u32_rel field_name_lengths) num_fields) ;;
  table_name <- read_len (table_name_len + 1) ;;
  table_name <- plift (until_nul table_name) ;;
  schema_name <- read_len (schema_len + 1) ;;
  schema_name <- plift (until_nul schema_name) ;;
  file_name <- read_rest ;;
  file_name <- plift (until_nul file_name) ;;
  pret (field_name_lengths, field_names, table_name, schema_name, file_name).
(** load.rs:31-78 *)
Definition read_load_rel : parser load_data :=
  slave_proxy_id <- read_le_u32 ;;
  exec_time <- read_le_u32 ;;
  skip_lines <- read_le_u32 ;;
  table_name_len <- read_u8 ;;
  schema_len <- read_u8 ;;
  num_fields <- read_le_u32 ;;
  field_term <- read_u8 ;;
  enclosed_by <- read_u8 ;;
  line_term <- read_u8 ;;
  line_start <- read_u8 ;;
  escaped_by <- read_u8 ;;
  opt_flags <- read_u8 ;;
  empty_flags <- read_u8 ;;
  ' (field_name_lengths, field_names, table_name, schema_name, file_name) <-
    read_load_names_rel table_name_len schema_len num_fields ;;
  pret (mk_load slave_proxy_id exec_time skip_lines table_name_len schema_len num_fields field_term
    enclosed_by line_term line_start escaped_by opt_flags empty_flags field_name_lengths field_names
    table_name schema_name file_name).
(** load.rs:184-239 *)
Definition read_new_load_rel : parser new_load_data :=
  slave_proxy_id <- read_le_u32 ;;
  exec_time <- read_le_u32 ;;
  skip_lines <- read_le_u32 ;;
  table_name_len <- read_u8 ;;
  schema_len <- read_u8 ;;
  num_fields <- read_le_u32 ;;
  field_term_len <- read_u8 ;;
  field_term <- read_len field_term_len ;;
  enclosed_by_len <- read_u8 ;;
  enclosed_by <- read_len enclosed_by_len ;;
  line_term_len <- read_u8 ;;
  line_term <- read_len line_term_len ;;
  line_start_len <- read_u8 ;;
  line_start <- read_len line_start_len ;;
  escaped_by_len <- read_u8 ;;
  escaped_by <- read_len escaped_by_len ;;
  opt_flags <- read_u8 ;;
  ' (field_name_lengths, field_names, table_name, schema_name, file_name) <-
    read_load_names_rel table_name_len schema_len num_fields ;;
  pret (mk_new_load slave_proxy_id exec_time skip_lines table_name_len schema_len num_fields
    field_term_len field_term enclosed_by_len enclosed_by line_term_len line_term line_start_len line_start
    escaped_by_len escaped_by opt_flags field_name_lengths field_names table_name schema_name file_name).

(** ** binlog/{table_map,rows_v2}.rs *)
(** table_map.rs:64-97; [col_cnt + 7] is a u64 *)
Definition read_raw_table_map_rel : parser raw_table_map :=
  schema_name_len <- read_u8 ;;
  schema_name <- read_len schema_name_len ;;
  read_len 1 ;;;
  table_name_len <- read_u8 ;;
  table_name <- read_len table_name_len ;;
  read_len 1 ;;;
  col_cnt <- read_len_enc_int ;;
  col_cnt <- match lei_to_u64 col_cnt with Some n => pret n | None => pfail EConstraint end ;;
  col_defs <- read_len col_cnt ;;
  col_meta_defs_len <- read_len_enc_int ;;
  col_meta_defs_len <- match lei_to_u64 col_meta_defs_len with Some n => pret n | None => pfail EConstraint end ;;
  col_meta_defs <- read_len col_meta_defs_len ;;
  let bitmap_len := wadd 64 col_cnt 7 / 8 in
  null_bitmap <- read_len bitmap_len ;;
  pret (mk_rtm schema_name table_name col_cnt col_defs col_meta_defs null_bitmap).
(** table_map.rs:38-50 *)
Definition table_map_of_rel (d : table_map_data) : res table_map :=
  rbind (fst (read_raw_table_map_rel (tmd_payload d))) table_map_of_raw.
(** rows_v2.rs:159-174 *)
Definition read_row_image_rel (n_cols : N) (present_bitmap : bytes) (present_cols : nat) (metas : list column_meta)
  : parser (list binlog_value) :=
  null_bitmap <- read_len (N.shiftr (N.of_nat present_cols + 7) 3) ;;
  col_bitmap <- plift (mark_nulls present_cols 0 0 null_bitmap present_bitmap) ;;
  read_log_row_rel n_cols col_bitmap metas.
(** rows_v2.rs:144-149; [n_cols + 7] is a u32 *)
Definition read_n_cols_rel : parser (N * N) :=
  n_cols <- read_len_enc_int ;;
  n_cols <- match lei_to_u32 n_cols with Some n => pret n | None => pfail EConstraint end ;;
  pret (n_cols, N.shiftr (wadd 32 n_cols 7) 3).
(** rows_v2.rs:138-183; [extra_data_len - 2] is a usize *)
Definition read_rows_v2_rel (extra_data_len : N) (metas : list column_meta) : parser rows_v2 :=
  extra_data <- read_len (rsub 64 extra_data_len 2) ;;
  ' (n_cols, bitmap_len) <- read_n_cols_rel ;;
  present_bitmap <- read_len bitmap_len ;;
  present_cols <- plift (count_present n_cols present_bitmap) ;;
  rows <- while_remaining (read_row_image_rel n_cols present_bitmap present_cols metas) ;;
  pret (mk_rows extra_data n_cols present_bitmap rows).
(** rows_v2.rs:196-269 *)
Definition read_update_rows_rel (extra_data_len : N) (metas : list column_meta) : parser update_rows_v2 :=
  extra_data <- read_len (rsub 64 extra_data_len 2) ;;
  ' (n_cols, bitmap_len) <- read_n_cols_rel ;;
  before_present_bitmap <- read_len bitmap_len ;;
  after_present_bitmap <- read_len bitmap_len ;;
  before_present_cols <- plift (count_present n_cols before_present_bitmap) ;;
  after_present_cols <- plift (count_present n_cols after_present_bitmap) ;;
  rows <- while_remaining (
    before_row <- read_row_image_rel n_cols before_present_bitmap before_present_cols metas ;;
    after_row <- read_row_image_rel n_cols after_present_bitmap after_present_cols metas ;;
    pret (before_row, after_row)) ;;
  pret (mk_update_rows extra_data n_cols before_present_bitmap after_present_bitmap rows).
(** rows_v2.rs:26-36, 103-113 *)
Definition rows_of_rel (d : rows_data_v2) (metas : list column_meta) : res rows_v2 :=
  fst (read_rows_v2_rel (rd2_extra_data_len d) metas (rd2_payload d)).
(** rows_v2.rs:66-76 *)
Definition update_rows_of_rel (d : rows_data_v2) (metas : list column_meta) : res update_rows_v2 :=
  fst (read_update_rows_rel (rd2_extra_data_len d) metas (rd2_payload d)).

(** ** stmt.rs: SQL literals *)
(** stmt.rs:184-200 *)
Definition lit_time_rel (t : my_time) : bytes :=
  let days := to_signed 32 (trunc 32 (t_days t)) in
  let hour := wrap_i32 (days * 24 + Z.of_N (t_hour t)) in
  let h := if (100 <=? hour)%Z then fmt_z hour else fmt_padz 2 hour in
  (if t_neg t then [n2b 45] else []) ++ h
    ++ [n2b 58] ++ fmt_pad 2 (t_minute t) ++ [n2b 58] ++ fmt_pad 2 (t_second t)
    ++ fmt_micro (t_micro t).
(** stmt.rs:239-247: only the low six bits of a shift distance count *)
Fixpoint lit_bit_loop_rel (bs : bytes) (i : N) (n : N) : N :=
  match bs with
  | [] => n
  | b :: bs =>
      lit_bit_loop_rel bs (i + 1) (wadd 64 n (trunc 64 (N.shiftl (b2n b) (N.shiftl i 3 mod 64))))
  end.

Section Sql.
  Variables fmt_f32 fmt_f64 : N -> bytes.
  (** stmt.rs:121-267: the types that differ *)
  Definition to_sql_literal_rel (p : stmt_value) : res (bytes * bool) :=
    match sv_val p with
    | BTime t => Ok (lit_time_rel t, true)
    | BBit bs => Ok (fmt_n (lit_bit_loop_rel bs 0 0), false)
    | _ => to_sql_literal fmt_f32 fmt_f64 p
    end.
  (** transform/sql.rs:142-149 *)
  Definition param_text_rel (p : stmt_value) : res bytes :=
    rmap (fun l : bytes * bool => if snd l then str "'" ++ fst l ++ str "'" else fst l) (to_sql_literal_rel p).
  (** transform/sql.rs:139-155 *)
  Fixpoint fill_rel (frs : list bytes) (params : list stmt_value) : res bytes :=
    match frs with
    | [] => Ok []
    | f :: frs =>
        if beqb f (str "?") then
          match params with
          | p :: params => rbind (param_text_rel p) (fun s => rmap (app s) (fill_rel frs params))
          | [] => fill_rel frs []
          end
        else rmap (app f) (fill_rel frs params)
    end.
  (** transform/sql.rs:134-160 *)
  Definition sql_list_rel (q : prepared_sql) : res (list bytes) := sequence (map (fill_rel (q_fragments q)) (q_params q)).
End Sql.

(** ** transform/json.rs *)
(** json.rs:178-204: the hours are a u32 *)
Definition json_time_rel (t : my_time) : bytes :=
  let h := wadd 32 (wmul 32 (t_days t) 24) (t_hour t) in
  (if t_neg t then str "-" else []) ++ fmt_pad 2 h ++ str ":" ++ fmt_pad 2 (t_minute t) ++ str ":"
      ++ fmt_pad 2 (t_second t) ++ (if t_micro t =? 0 then [] else str "." ++ fmt_pad 6 (t_micro t)).
(** json.rs:206-213 *)
Fixpoint json_bit_loop_rel (bs : bytes) (i : N) (n : N) : N :=
  match bs with
  | [] => n
  | b :: bs =>
      json_bit_loop_rel bs (i + 1) (wadd 64 n (trunc 64 (N.shiftl (b2n b) (i * 8 mod 64))))
  end.
Section Json.
  Variable widen : N -> N.
  (** json.rs:121-222: the types that differ *)
  Definition to_json_value_rel (sv : stmt_value) : res (json_value * bool) :=
    match sv_val sv with
    | BTime t => Ok (JString (json_time_rel t), false)
    | BBit bs => Ok (JInt (Z.of_N (json_bit_loop_rel bs 0 0)), false)
    | _ => to_json_value widen sv
    end.
  (** json.rs:25-32, 58-65, 89-96 *)
  Fixpoint json_cols_rel (cells : list (col_def * binlog_value)) (m : json_map) (enc : list bytes)
    : res (json_map * list bytes) :=
    match cells with
    | [] => Ok (m, enc)
    | (def, col) :: cells =>
        rbind (sv_of_binlog col (f_unsigned def)) (fun sv =>
        rbind (to_json_value_rel sv) (fun p =>
        json_cols_rel cells (map_insert (f_name def) (fst p) m) (if snd p : bool then enc ++ [f_name def] else enc)))
    end.
  (** json.rs:97-104 *)
  Fixpoint json_cols_after_rel (cells : list (col_def * binlog_value)) (m : json_map) (enc : list bytes)
    : res (json_map * list bytes) :=
    match cells with
    | [] => Ok (m, enc)
    | (def, col) :: cells =>
        rbind (sv_of_binlog col (f_unsigned def)) (fun sv =>
        rbind (to_json_value_rel sv) (fun p =>
        json_cols_after_rel cells (map_insert (f_name def) (fst p) m)
          (if (snd p : bool) && negb (existsb (beqb (f_name def)) enc) then enc ++ [f_name def] else enc)))
    end.
  (** json.rs:15-46 *)
  Definition json_from_insert_rel (db tbl : bytes) (r : rows_v2) (defs : list column_def) : res (list json_row) :=
    rbind (filter_col_defs (r_present_bitmap r) defs) (fun defs =>
    sequence (map (fun cols =>
      rmap (fun p : json_map * list bytes => mk_json JkInsert (snd p) db tbl None (Some (fst p)))
        (json_cols_rel (combine defs cols) [] [])) (r_rows r))).
  (** json.rs:48-79 *)
  Definition json_from_delete_rel (db tbl : bytes) (r : rows_v2) (defs : list column_def) : res (list json_row) :=
    rbind (filter_col_defs (r_present_bitmap r) defs) (fun defs =>
    sequence (map (fun cols =>
      rmap (fun p : json_map * list bytes => mk_json JkDelete (snd p) db tbl (Some (fst p)) None)
        (json_cols_rel (combine defs cols) [] [])) (r_rows r))).
  (** json.rs:81-118 *)
  Definition json_from_update_rel (db tbl : bytes) (u : update_rows_v2) (defs : list column_def) : res (list json_row) :=
    rbind (filter_col_defs (u_before_present_bitmap u) defs) (fun before_defs =>
    rbind (filter_col_defs (u_after_present_bitmap u) defs) (fun after_defs =>
    sequence (map (fun cols =>
      rbind (json_cols_rel (combine before_defs (fst cols)) [] []) (fun b =>
      rbind (json_cols_after_rel (combine after_defs (snd cols)) [] (snd b)) (fun a =>
      Ok (mk_json JkUpdate (snd a) db tbl (Some (fst b)) (Some (fst a)))))) (u_rows u)))).
End Json.

(** ** mybin-async *)
(** conn.rs:158-249 *)
Definition handshake_rel (sha1 sha256 : bytes -> bytes) (opts : conn_opts) : io unit :=
  msg <~ recv_msg ;;
  hs <~ ilift (fst (read_initial_handshake_rel msg)) ;;
  let seed := hs_auth_data_1 hs ++ hs_auth_data_2 hs in
  _ <~ (fun c => (Ok tt, set_cap c (login_caps (c_cap c)))) ;;
  p <~ ilift (new_auth_plugin (hs_plugin hs)) ;;
  let '(r, p) := gen_init_auth_resp sha1 sha256 p (o_password opts) seed in
  auth_response <~ ilift r ;;
  _ <~ (match o_database opts with
        | [] => iret tt
        | _ => fun c => (Ok tt, set_cap c (insert (c_cap c) CONNECT_WITH_DB))
        end) ;;
  fun c =>
    let cap := c_cap c in
    let resp := mk_hr cap 0xffffff 33 (o_username opts) auth_response (o_database opts) (hs_plugin hs) [] in
    (_ <~ send_msg false (write_handshake_response resp) false ;;
     fun c => handshake_loop sha1 sha256 false cap (S (sched_len (c_rd c))) p c) c.

(** binlog.rs:206-223 *)
Definition check_rotate_rel (checksum : bool) (msg : bytes) : res unit :=
  let '(r, body) := read_event_header msg in
  rbind r (fun eh =>
  match h_type eh with
  | EtRotate =>
      rbind (if checksum then rmap fst (split_last4 body) else Ok body) (fun body =>
      rmap (fun _ => tt) (fst (read_rotate body)))
  | _ => Err ECustom
  end).
(** binlog.rs:232-249 *)
Definition recv_fde_rel (o : binlog_options) : io binlog_stream :=
  msg <~ recv_msg ;;
  match read_u8 msg with
  | (Ok _, msg) =>
      ' (pv4, _) <~ parse from_fde_bytes_rel msg ;;
      iret (mk_stream pv4 (bo_validate o) false (bo_non_block o))
  | (Err e, _) => ierr e
  | (Panic p, _) => ipanic p
  | (Loop, _) => ilift Loop
  end.
(** binlog.rs:184-249 *)
Definition recv_stream_start_rel (checksum : bool) (o : binlog_options) : io binlog_stream :=
  msg <~ recv_msg ;;
  match msg with
  | [] => ierr (EIncomplete None)
  | b :: rest =>
      if b2n b =? 0xff then server_error msg
      else if b2n b =? 0xfe then
        fun c =>
          (_ <~ parse (read_eof_packet (c_cap c)) msg ;;
           iret (mk_stream (mk_parser [] false) (bo_validate o) true (bo_non_block o))) c
      else if b2n b =? 0x00 then
        _ <~ ilift (check_rotate_rel checksum rest) ;;
        recv_fde_rel o
      else ierr EPacket
  end.
(** binlog.rs:90-249 *)
Definition request_stream_rel (slave_uuid : bytes) (random_id : N) (o : binlog_options) : io binlog_stream :=
  master_id <~ get_required false (non_null u32_from_text) (str "SERVER_ID") EEmptyResultSet ;;
  _ <~ conn_set_user_var false (str "MASTER_HEARTBEAT_PERIOD") (to_col (AU64 (trunc 64 (bo_heartbeat o)))) ;;
  binlog_checksum <~ get_required false (non_null string_from_text) (str "BINLOG_CHECKSUM") ECustom ;;
  _ <~ conn_set_user_var false (str "MASTER_BINLOG_CHECKSUM") (to_col (AString binlog_checksum)) ;;
  gtid_mode <~ get_required false (non_null string_from_text) (str "GTID_MODE") ECustom ;;
  server_uuid <~ get_required false (non_null string_from_text) (str "SERVER_UUID") ECustom ;;
  _ <~ conn_set_user_var false (str "SLAVE_UUID") (to_col (AString slave_uuid)) ;;
  let slave_id := if bo_server_id o =? 0 then random_id else bo_server_id o in
  _ <~ (_ <~ send_msg false (write_register_slave (register_slave_new slave_id master_id)) true ;; recv_com_response) ;;
  _ <~ send_msg false (stream_request gtid_mode slave_id o) true ;;
  recv_stream_start_rel (beqb binlog_checksum (str "CRC32")) o.
(** binlog.rs:297-316 *)
Definition recv_and_parse_event_rel (crc : bytes -> N) (s : binlog_stream) : io stream_event :=
  msg <~ recv_msg ;;
  match msg with
  | [] => ierr (EIncomplete None)
  | header :: msg =>
      if s_non_block s && (b2n header =? 0xfe) then iret SeEnd
      else if negb (b2n header =? 0) then ierr EPacket
      else
        o <~ parse (parse_event_rel crc (s_pv4 s) (s_validate s)) msg ;;
        iret (match o with Some e => SeSingle e | None => SeUnsupported end)
  end.
(** binlog.rs:284-295 *)
Fixpoint next_event_loop_rel (crc : bytes -> N) (fuel : nat) (s : binlog_stream) : io (option event) :=
  match fuel with
  | O => ilift Loop
  | S fuel =>
      e <~ recv_and_parse_event_rel crc s ;;
      match e with
      | SeSingle e => iret (Some e)
      | SeUnsupported => next_event_loop_rel crc fuel s
      | SeEnd => iret None
      end
  end.
Definition next_event_rel (crc : bytes -> N) (s : binlog_stream) : io (option event) := fun c =>
  if s_completed s then (Ok None, c) else next_event_loop_rel crc (S (sched_len (c_rd c))) s c.

(** ** mybinlog and mybinmsg *)
Section Dml.
  Variables fmt_f32 fmt_f64 : N -> bytes.
  Variable crc : bytes -> N.
  Variable o : dml_options.

  (** mybinlog.rs:104-133 *)
  Definition dml_table_map_rel (st : dml_state) (data : bytes) : io (list bytes * option dml_state) :=
    d <~ ilift (fst (read_table_map_data data)) ;;
    let id := tmd_table_id d in
    match find_table id (dm_tbls st), skips id (dm_skip st) with
    | None, false =>
        tm <~ ilift (table_map_of_rel d) ;;
        if negb (matches (do_database o) (tm_schema_name tm)) || negb (matches (do_table o) (tm_table_name tm))
        then iret ([], Some (mk_dml (dm_tbls st) (id :: dm_skip st) (dm_rows st)))
        else
          _ <~ conn_init_db false (tm_schema_name tm) ;;
          defs <~ conn_field_list false (tm_table_name tm) (str "%") ;;
          iret ([], Some (mk_dml ((id, mk_meta (tm_schema_name tm) (tm_table_name tm) (tm_col_metas tm) defs) :: dm_tbls st)
                            (dm_skip st) (dm_rows st)))
    | _, _ => iret ([], Some st)
    end.
  (** mybinlog.rs:134-152 *)
  Definition dml_delete_rel (st : dml_state) (data : bytes) : res (list bytes * option dml_state) :=
    rbind (fst (read_delete_rows_v2 data)) (fun d =>
    with_table st (rd2_table_id d) (fun tm =>
      rbind (rows_of_rel d (mt_metas tm)) (fun rows =>
      rbind (sql_from_delete (mt_db tm) (mt_tbl tm) rows (mt_defs tm)) (fun q =>
      rmap (print_counted o st) (sql_list_rel fmt_f32 fmt_f64 q))))).
  (** mybinlog.rs:153-180 *)
  Definition dml_update_rel (st : dml_state) (next_pos : N) (data : bytes) : res (list bytes * option dml_state) :=
    rbind (fst (read_update_rows_v2 data)) (fun d =>
    with_table st (rd2_table_id d) (fun tm =>
      rbind (update_rows_of_rel d (mt_metas tm)) (fun rows =>
      if negb (key_exists (mt_defs tm)) then Ok ([no_key_note tm next_pos], Some st)
      else
        rbind (sql_from_update (mt_db tm) (mt_tbl tm) rows (mt_defs tm)) (fun q =>
        rmap (print_counted o st) (sql_list_rel fmt_f32 fmt_f64 q))))).
  (** mybinlog.rs:181-199 *)
  Definition dml_insert_rel (st : dml_state) (data : bytes) : res (list bytes * option dml_state) :=
    rbind (fst (read_write_rows_v2 data)) (fun d =>
    with_table st (rd2_table_id d) (fun tm =>
      rbind (rows_of_rel d (mt_metas tm)) (fun rows =>
      rbind (sql_from_insert (mt_db tm) (mt_tbl tm) rows (mt_defs tm)) (fun q =>
      rmap (print_counted o st) (sql_list_rel fmt_f32 fmt_f64 q))))).
  (** mybinlog.rs:103-216 *)
  Definition dml_event_rel (st : dml_state) (e : event) : io (list bytes * option dml_state) :=
    match ev_kind e with
    | KTableMap => dml_table_map_rel st (ev_data e)
    | KDeleteRowsV2 => ilift (dml_delete_rel st (ev_data e))
    | KUpdateRowsV2 => ilift (dml_update_rel st (h_next_pos (ev_header e)) (ev_data e))
    | KWriteRowsV2 => ilift (dml_insert_rel st (ev_data e))
    | KRotate => iret ([], if do_until_now o then Some (mk_dml [] [] (dm_rows st)) else None)
    | _ => iret ([], Some st)
    end.
  (** mybinlog.rs:102-217 *)
  Fixpoint dml_loop_rel (fuel : nat) (s : binlog_stream) (st : dml_state) (c h : conn) : res unit * list bytes * conn * conn :=
    match fuel with
    | O => (Loop, [], c, h)
    | S fuel =>
        match next_event_rel crc s c with
        | (Ok (Some e), c) =>
            match dml_event_rel st e h with
            | (Ok (out, Some st), h) =>
                let '(r, out', c, h) := dml_loop_rel fuel s st c h in (r, out ++ out', c, h)
            | (Ok (out, None), h) => (Ok tt, out, c, h)
            | (Err e, h) => (Err e, [], c, h)
            | (Panic p, h) => (Panic p, [], c, h)
            | (Loop, h) => (Loop, [], c, h)
            end
        | (Ok None, c) => (Ok tt, [], c, h)
        | (Err e, c) => (Err e, [], c, h)
        | (Panic p, c) => (Panic p, [], c, h)
        | (Loop, c) => (Loop, [], c, h)
        end
    end.
  (** mybinlog.rs:81-219 *)
  Definition print_dmls_rel (slave_uuid : bytes) (random_id : N) (filename : bytes) (non_block : bool) (c h : conn)
    : res unit * list bytes * conn * conn :=
    match request_stream_rel slave_uuid random_id
            (bo_set_non_block non_block (bo_set_pos 4 (bo_set_filename filename bo_new))) c with
    | (Ok s, c) => dml_loop_rel (S (sched_len (c_rd c))) s (mk_dml [] [] 0) c h
    | (Err e, c) => (Err e, [], c, h)
    | (Panic p, c) => (Panic p, [], c, h)
    | (Loop, c) => (Loop, [], c, h)
    end.
End Dml.

Section Tools.
  Variables sha1 sha256 : bytes -> bytes.
  Variables fmt_f32 fmt_f64 : N -> bytes.
  Variable crc : bytes -> N.
  Variable compile : bytes -> option (bytes -> bool).

  (** mybinlog.rs:68-79, mybinmsg.rs:39-54 *)
  Definition connect_rel (user pw : bytes) (s : option socket) : res unit * option conn :=
    match s with
    | None => (Err EIO, None)
    | Some s => let '(r, c) := handshake_rel sha1 sha256 (mk_opts user pw []) (conn_new s) in (r, Some c)
    end.
  (** mybinlog.rs:26-30 *)
  Definition exec_list_rel (user pw : bytes) (s : option socket) : res (list (bytes * N)) * option conn :=
    match connect_rel user pw s with
    | (Ok _, Some c) => let '(r, c) := conn_binlog_files false c in (r, Some c)
    | (r, c) => (rbind r (fun _ => Err EIO), c)
    end.
  (** mybinlog.rs:31-63 *)
  Definition exec_dml_rel (uuid : bytes) (random_id : N) (user pw filename : bytes) (until_now : bool)
      (database_filter table_filter : option bytes) (block : bool) (limit : N) (s1 s2 : option socket)
    : res unit * list bytes * option conn * option conn :=
    match connect_rel user pw s1 with
    | (Ok _, Some c) =>
        match connect_rel user pw s2 with
        | (Ok _, Some h) =>
            match compile_opt compile database_filter with
            | Ok df =>
                match compile_opt compile table_filter with
                | Ok tf =>
                    let '(r, out, c, h) := print_dmls_rel fmt_f32 fmt_f64 crc (mk_do until_now df tf limit)
                      uuid random_id filename (negb block) c h in (r, out, Some c, Some h)
                | r => (rbind r (fun _ => Ok tt), [], Some c, Some h)
                end
            | r => (rbind r (fun _ => Ok tt), [], Some c, Some h)
            end
        | (r, h) => (r, [], Some c, h)
        end
    | (r, c) => (r, [], c, None)
    end.
  (** mybinmsg.rs:33-35 *)
  Fixpoint watch_loop_rel (fuel : nat) (s : binlog_stream) (c : conn) : res unit * list event * conn :=
    match fuel with
    | O => (Loop, [], c)
    | S fuel =>
        match next_event_rel crc s c with
        | (Ok (Some e), c) => let '(r, es, c) := watch_loop_rel fuel s c in (r, e :: es, c)
        | (Ok None, c) => (Ok tt, [], c)
        | (Err e, c) => (Err e, [], c)
        | (Panic p, c) => (Panic p, [], c)
        | (Loop, c) => (Loop, [], c)
        end
    end.
  (** mybinmsg.rs:24-37 *)
  Definition watch_rel (uuid : bytes) (random_id : N) (conf : connect_config) (s : option socket)
    : res unit * list (bytes * N) * list event * option conn :=
    match conf with
    | CUnix => (Panic PUnwrap, [], [], None)
    | CTcp user pw =>
        match connect_rel user pw s with
        | (Ok _, Some c) =>
            match conn_binlog_files false c with
            | (Ok files, c) =>
                match request_stream_rel uuid random_id bo_new c with
                | (Ok st, c) =>
                    let '(r, es, c) := watch_loop_rel (S (sched_len (c_rd c))) st c in (r, files, es, Some c)
                | (r, c) => (rbind r (fun _ => Ok tt), files, [], Some c)
                end
            | (r, c) => (rbind r (fun _ => Ok tt), [], [], Some c)
            end
        | (r, c) => (r, [], [], c)
        end
    end.
End Tools.
