(** * Model of the event bodies: mybin-core/src/binlog/{gtid,incident,intvar,load,query,rand,rotate,user_var,xid}.rs *)
From Verif Require Import Model.Base Model.BytesParser Model.Flags Model.Cmd.
Open Scope N_scope.

(** [while input.has_remaining() { v.push(p()?) }].  A step that consumes nothing would be
    repeated for ever; that is the only way to run out of fuel. *)
Fixpoint pwhile {A} (fuel : nat) (p : parser A) : parser (list A) := fun bs =>
  match bs with
  | [] => (Ok [], bs)
  | _ :: _ =>
      match fuel with
      | O => (Loop, bs)
      | S fuel => (a <- p ;; l <- pwhile fuel p ;; pret (a :: l)) bs
      end
  end.
Definition while_remaining {A} (p : parser A) : parser (list A) := fun bs => pwhile (length bs) p bs.

(** ** gtid.rs *)

(** gtid.rs:11-21 (also 45-55) *)
Record gtid_log := mk_gtid_log {
  gl_flags : N; gl_sid : N; gl_gno : N; gl_ts_type : N; gl_last_committed : N; gl_seq_num : N }.
(** gtid.rs:78-96: (ts_type, last_committed, seq_num) *)
Definition read_logical_ts : parser (N * N * N) :=
  n <- premaining ;;
  if n <? 17 then pret (0, 0, 0)
  else
    ts_type <- read_u8 ;;
    last_committed <- read_le_u64 ;;
    seq_num <- read_le_u64 ;;
    pret (ts_type, last_committed, seq_num).
(** gtid.rs:23-43 *)
Definition read_gtid_log : parser gtid_log :=
  gtid_flags <- read_u8 ;;
  encoded_sid <- read_le_u128 ;;
  encoded_gno <- read_le_u64 ;;
  ' (ts_type, last_committed, seq_num) <- read_logical_ts ;;
  pret (mk_gtid_log gtid_flags encoded_sid encoded_gno ts_type last_committed seq_num).
(** gtid.rs:57-69 *)
Definition read_anonymous_gtid_log : parser gtid_log :=
  gld <- read_gtid_log ;;
  pret (mk_gtid_log (gl_flags gld) (gl_sid gld) (gl_gno gld) (gl_ts_type gld) (gl_last_committed gld) (gl_seq_num gld)).

(** gtid.rs:128-139: intervals are (start, inclusive end) *)
Record gtid_range := mk_gtid_range { gr_sid : N; gr_intervals : list (N * N) }.
(** gtid.rs:165-180: the loop, with [last] *)
Fixpoint read_gtid_intervals (n : nat) (last : N) : parser (list (N * N)) :=
  match n with
  | O => pret []
  | S n =>
      start <- read_le_u64 ;;
      end_ <- read_le_u64 ;;
      if (start <=? last) || (end_ <=? start) then pfail EConstraint
      else
        l <- read_gtid_intervals n end_ ;;
        pret ((start, end_ - 1) :: l)
  end.
(** gtid.rs:159-183 *)
Definition read_gtid_range : parser gtid_range :=
  sid <- read_le_u128 ;;
  n_intervals <- read_le_u64 ;;
  plift (with_capacity 16 n_intervals) ;;;
  intervals <- read_gtid_intervals (N.to_nat n_intervals) 0 ;;
  pret (mk_gtid_range sid intervals).
(** [LinkedHashMap::with_capacity(n)] (crate linked-hash-map over std's hash table with 16-byte
    entries): the number of buckets is the next power of two of 8/7 n; a table of more than
    [isize::MAX] bytes panics.  Failing to obtain the memory (an abort) is not modelled. *)
Definition map_with_capacity (n : N) : res unit :=
  if 2 ^ 61 <=? n then Panic PAlloc
  else if 2 ^ 63 <=? 17 * 2 ^ N.log2_up (n * 8 / 7) + 16 then Panic PAlloc
  else Ok tt.
(** [LinkedHashMap::insert]: an existing key gets the new value and moves to the end *)
Definition map_insert (m : list (N * gtid_range)) (k : N) (v : gtid_range) : list (N * gtid_range) :=
  filter (fun e => negb (fst e =? k)) m ++ [(k, v)].
(** gtid.rs:145-157 *)
Definition read_gtid_set : parser (list (N * gtid_range)) :=
  n_sids <- read_le_u64 ;;
  plift (map_with_capacity n_sids) ;;;
  l <- prepeat (N.to_nat n_sids) read_gtid_range ;;
  pret (fold_left (fun m r => map_insert m (gr_sid r) r) l []).
(** gtid.rs:118-123: the payload *)
Definition read_previous_gtids : parser bytes := read_rest.
(** gtid.rs:107-112, on a clone *)
Definition gtid_set (payload : bytes) : res (list (N * gtid_range)) := fst (read_gtid_set payload).

(** ** incident.rs *)
(** incident.rs:9-15 *)
Record incident := mk_incident { in_type : N; in_msg_len : N; in_msg : bytes }.
(** incident.rs:17-28 *)
Definition read_incident : parser incident :=
  incident_type <- read_le_u16 ;;
  msg_len <- read_u8 ;;
  msg <- read_len msg_len ;;
  pret (mk_incident incident_type msg_len msg).

(** ** intvar.rs *)
(** intvar.rs:25-30: LAST_INSERT_ID | INSERT_ID *)
Definition all_intvar_keys : N := N.lor 0x01 0x02.
(** intvar.rs:15-23: (key, value) *)
Definition read_intvar : parser (N * N) :=
  key <- read_u8 ;;
  key <- match from_bits all_intvar_keys key with Some k => pret k | None => pfail EConstraint end ;;
  value <- read_le_u64 ;;
  pret (key, value).

(** ** rand.rs:14-20: (seed1, seed2) *)
Definition read_rand : parser (N * N) :=
  seed1 <- read_le_u64 ;;
  seed2 <- read_le_u64 ;;
  pret (seed1, seed2).

(** ** rotate.rs:15-24: (position, next_binlog_filename) *)
Definition read_rotate : parser (N * bytes) :=
  position <- read_le_u64 ;;
  next_binlog_filename <- read_rest ;;
  pret (position, next_binlog_filename).

(** ** xid.rs:13-18 *)
Definition read_xid : parser N := read_le_u64.

(** ** user_var.rs *)
(** user_var.rs:10-16 *)
Record user_var := mk_user_var { uv_name_length : N; uv_name : bytes; uv_is_null : N; uv_value : bytes }.
(** user_var.rs:18-31 *)
Definition read_user_var : parser user_var :=
  name_length <- read_le_u32 ;;
  name <- read_len name_length ;;
  is_null <- read_u8 ;;
  value <- read_rest ;;
  pret (mk_user_var name_length name is_null value).
(** user_var.rs:37-42 *)
Record user_var_value := mk_user_var_value { uvv_type : N; uvv_charset : N; uvv_value : bytes; uvv_flags : N }.
(** user_var.rs:68-72 *)
Definition all_user_var_flags : N := 0x01.
(** user_var.rs:45-66 *)
Definition read_user_var_value : parser user_var_value :=
  value_type <- read_u8 ;;
  charset_num <- read_le_u32 ;;
  value_len <- read_le_u32 ;;
  value <- read_len value_len ;;
  n <- premaining ;;
  flags <- (if 0 <? n then read_u8 else pret 0) ;;
  flags <- match from_bits all_user_var_flags flags with Some f => pret f | None => pfail EConstraint end ;;
  pret (mk_user_var_value value_type charset_num value flags).

(** ** load.rs *)

(** [s.read_until(0, false)] on a separate byte string [s] *)
Definition until_nul (s : bytes) : res bytes := fst (read_until x00 false s).
(** [field_name_lengths.iter().map(|l| *l as u32).sum::<u32>()], with overflow checks *)
Fixpoint sum_u32 (acc : N) (lens : bytes) : res N :=
  match lens with
  | [] => Ok acc
  | l :: lens => rbind (cadd 32 acc (b2n l)) (fun acc => sum_u32 acc lens)
  end.
(** load.rs:47-56 and 204-213: the part common to both load events *)
Definition read_load_names (table_name_len schema_len num_fields : N) : parser (bytes * bytes * bytes * bytes * bytes) :=
  field_name_lengths <- read_len num_fields ;;
  sum <- plift (sum_u32 0 field_name_lengths) ;;
  field_name_total_length <- plift (cadd 32 sum num_fields) ;;
  field_names <- read_len field_name_total_length ;;
  table_name <- read_len (table_name_len + 1) ;;
  table_name <- plift (until_nul table_name) ;;
  schema_name <- read_len (schema_len + 1) ;;
  schema_name <- plift (until_nul schema_name) ;;
  file_name <- read_rest ;;
  file_name <- plift (until_nul file_name) ;;
  pret (field_name_lengths, field_names, table_name, schema_name, file_name).
(** load.rs:9-29 *)
Record load_data := mk_load {
  ld_slave_proxy_id : N; ld_exec_time : N; ld_skip_lines : N; ld_table_name_len : N; ld_schema_len : N;
  ld_num_fields : N; ld_field_term : N; ld_enclosed_by : N; ld_line_term : N; ld_line_start : N;
  ld_escaped_by : N; ld_opt_flags : N; ld_empty_flags : N; ld_field_name_lengths : bytes;
  ld_field_names : bytes; ld_table_name : bytes; ld_schema_name : bytes; ld_file_name : bytes }.
(** load.rs:31-78 *)
Definition read_load : parser load_data :=
  slave_proxy_id <- read_le_u32 ;;
  exec_time <- read_le_u32 ;;
  skip_lines <- read_le_u32 ;;
  table_name_len <- read_u8 ;;
  schema_len <- read_u8 ;;
  num_fields <- read_le_u32 ;;
  field_term <- read_u8 ;;
  enclosed_by <- read_u8 ;;
  line_term <- read_u8 ;;
  line_start <- read_u8 ;;
  escaped_by <- read_u8 ;;
  opt_flags <- read_u8 ;;
  empty_flags <- read_u8 ;;
  ' (field_name_lengths, field_names, table_name, schema_name, file_name) <-
    read_load_names table_name_len schema_len num_fields ;;
  pret (mk_load slave_proxy_id exec_time skip_lines table_name_len schema_len num_fields field_term
    enclosed_by line_term line_start escaped_by opt_flags empty_flags field_name_lengths field_names
    table_name schema_name file_name).
(** load.rs:90-100: (file_id, block_data) *)
Definition read_create_file : parser (N * bytes) :=
  file_id <- read_le_u32 ;;
  block_data <- read_rest ;;
  block_data <- plift (until_nul block_data) ;;
  pret (file_id, block_data).
(** load.rs:112-122 *)
Definition read_append_block : parser (N * bytes) :=
  file_id <- read_le_u32 ;;
  block_data <- read_rest ;;
  block_data <- plift (until_nul block_data) ;;
  pret (file_id, block_data).
(** load.rs:132-137 *)
Definition read_exec_load : parser N := read_le_u32.
(** load.rs:147-152 *)
Definition read_delete_file : parser N := read_le_u32.
(** load.rs:158-182 *)
Record new_load_data := mk_new_load {
  nl_slave_proxy_id : N; nl_exec_time : N; nl_skip_lines : N; nl_table_name_len : N; nl_schema_len : N;
  nl_num_fields : N; nl_field_term_len : N; nl_field_term : bytes; nl_enclosed_by_len : N; nl_enclosed_by : bytes;
  nl_line_term_len : N; nl_line_term : bytes; nl_line_start_len : N; nl_line_start : bytes;
  nl_escaped_by_len : N; nl_escaped_by : bytes; nl_opt_flags : N; nl_field_name_lengths : bytes;
  nl_field_names : bytes; nl_table_name : bytes; nl_schema_name : bytes; nl_file_name : bytes }.
(** load.rs:184-239 *)
Definition read_new_load : parser new_load_data :=
  slave_proxy_id <- read_le_u32 ;;
  exec_time <- read_le_u32 ;;
  skip_lines <- read_le_u32 ;;
  table_name_len <- read_u8 ;;
  schema_len <- read_u8 ;;
  num_fields <- read_le_u32 ;;
  field_term_len <- read_u8 ;;
  field_term <- read_len field_term_len ;;
  enclosed_by_len <- read_u8 ;;
  enclosed_by <- read_len enclosed_by_len ;;
  line_term_len <- read_u8 ;;
  line_term <- read_len line_term_len ;;
  line_start_len <- read_u8 ;;
  line_start <- read_len line_start_len ;;
  escaped_by_len <- read_u8 ;;
  escaped_by <- read_len escaped_by_len ;;
  opt_flags <- read_u8 ;;
  ' (field_name_lengths, field_names, table_name, schema_name, file_name) <-
    read_load_names table_name_len schema_len num_fields ;;
  pret (mk_new_load slave_proxy_id exec_time skip_lines table_name_len schema_len num_fields
    field_term_len field_term enclosed_by_len enclosed_by line_term_len line_term line_start_len line_start
    escaped_by_len escaped_by opt_flags field_name_lengths field_names table_name schema_name file_name).
(** load.rs:251-260 *)
Definition read_begin_load_query : parser (N * bytes) :=
  file_id <- read_le_u32 ;;
  block_data <- read_rest ;;
  pret (file_id, block_data).
(** load.rs:270-282 *)
Record execute_load_query := mk_elq {
  elq_slave_proxy_id : N; elq_execution_time : N; elq_schema_length : N; elq_error_code : N;
  elq_status_vars_length : N; elq_file_id : N; elq_start_pos : N; elq_end_pos : N;
  elq_dup_handling_flags : N; elq_payload : bytes }.
(** load.rs:284-309 *)
Definition read_execute_load_query : parser execute_load_query :=
  slave_proxy_id <- read_le_u32 ;;
  execution_time <- read_le_u32 ;;
  schema_length <- read_u8 ;;
  error_code <- read_le_u16 ;;
  status_vars_length <- read_le_u16 ;;
  file_id <- read_le_u32 ;;
  start_pos <- read_le_u32 ;;
  end_pos <- read_le_u32 ;;
  dup_handling_flags <- read_u8 ;;
  payload <- read_rest ;;
  pret (mk_elq slave_proxy_id execution_time schema_length error_code status_vars_length file_id start_pos
    end_pos dup_handling_flags payload).

(** ** query.rs *)
(** query.rs:12-23 *)
Record query_data := mk_query_data {
  q_slave_proxy_id : N; q_exec_time : N; q_schema_len : N; q_error_code : N; q_status_vars_len : N;
  q_status_vars : bytes; q_schema : bytes; q_query : bytes }.
(** query.rs:25-49 *)
Definition read_query_data : parser query_data :=
  slave_proxy_id <- read_le_u32 ;;
  exec_time <- read_le_u32 ;;
  schema_len <- read_u8 ;;
  error_code <- read_le_u16 ;;
  status_vars_len <- read_le_u16 ;;
  status_vars <- read_len status_vars_len ;;
  schema <- read_len schema_len ;;
  read_len 1 ;;;
  query <- read_rest ;;
  pret (mk_query_data slave_proxy_id exec_time schema_len error_code status_vars_len status_vars schema query).
(** query.rs:52-69 *)
Inductive status_var : Type :=
| SvFlags2 (n : N) | SvSqlMode (n : N) | SvCatalog (s : bytes) | SvAutoIncrement (inc offset : N)
| SvCharset (client conn server : N) | SvTimeZone (s : bytes) | SvCatalogNz (s : bytes)
| SvLcTimeNames (n : N) | SvCharsetDatabase (n : N) | SvTableMapForUpdate (n : N)
| SvMasterDataWritten (n : N) | SvInvokers (username hostname : bytes)
| SvUpdatedDbNames (names : list bytes) | SvMicroSeconds (n : N).
(** query.rs:86-177: one iteration *)
Definition read_status_var : parser status_var :=
  key <- read_u8 ;;
  match key with
  | 0x00 => pmap SvFlags2 read_le_u32
  | 0x01 => pmap SvSqlMode read_le_u64
  | 0x02 =>
      len <- read_u8 ;;
      s <- read_len len ;;
      read_len 1 ;;;
      pret (SvCatalog s)
  | 0x03 => inc <- read_le_u16 ;; offset <- read_le_u16 ;; pret (SvAutoIncrement inc offset)
  | 0x04 =>
      client <- read_le_u16 ;; conn <- read_le_u16 ;; server <- read_le_u16 ;;
      pret (SvCharset client conn server)
  | 0x05 => len <- read_u8 ;; s <- read_len len ;; pret (SvTimeZone s)
  | 0x06 => len <- read_u8 ;; s <- read_len len ;; pret (SvCatalogNz s)
  | 0x07 => pmap SvLcTimeNames read_le_u16
  | 0x08 => pmap SvCharsetDatabase read_le_u16
  | 0x09 => pmap SvTableMapForUpdate read_le_u64
  | 0x0a => pmap SvMasterDataWritten read_le_u32
  | 0x0b =>
      lun <- read_u8 ;;
      username <- read_len lun ;;
      lhn <- read_u8 ;;
      hostname <- read_len lhn ;;
      pret (SvInvokers username hostname)
  | 0x0c =>
      cnt <- read_u8 ;;
      names <- prepeat (N.to_nat cnt) (read_until x00 false) ;;
      pret (SvUpdatedDbNames names)
  | 0x0d => pmap SvMicroSeconds read_le_u24
  | _ => pfail EConstraint
  end.
(** query.rs:82-182 *)
Definition read_status_vars : parser (list status_var) := while_remaining read_status_var.
