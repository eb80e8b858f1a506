(** * Independent specification: the layouts of binlog events

    As Spec/Accepts.v, from the MySQL documentation of the binlog. *)
From Verif Require Import Model.Base Model.LenEnc Model.Utf8 Model.Cmd Model.Col Model.Event Model.EventBody
  Model.Rows Spec.Nums Spec.LenEncSpec Spec.Wire Spec.Accepts.
Open Scope N_scope.

(** a string behind its length as a number in the layout [E] *)
Definition behind_length (E : N -> bytes -> Prop) (s w : bytes) : Prop := exists l, E (N.of_nat (length s)) l /\ w = l ++ s.
(** [k] bytes of which the string ends at the first NUL; all bytes there are *)
Definition padded (k : N) (s w : bytes) : Prop := N.of_nat (length w) = k /\ no_nul s /\ exists pad, w = s ++ x00 :: pad.
Definition padded_rest (s w : bytes) : Prop := no_nul s /\ exists pad, w = s ++ x00 :: pad.

(** ** Headers *)
(** the flags nobody defined are ignored *)
Definition header_flags (f : N) (w : bytes) : Prop := exists n, is_le 2 n w /\ f = n mod 2 ^ 10.
Definition header_v1_layout (h : event_header_v1) : bytes -> Prop := fun w =>
  fields [is_le 4 (h1_timestamp h); byte1 (event_type_code (h1_type h)); is_le 4 (h1_server_id h); is_le 4 (h1_event_len h)] w.
Definition header_layout (h : event_header) : bytes -> Prop := fun w =>
  fields [is_le 4 (h_timestamp h); byte1 (event_type_code (h_type h)); is_le 4 (h_server_id h); is_le 4 (h_event_len h);
          is_le 4 (h_next_pos h); header_flags (h_flags h)] w.
(** the type and the length of the event at the start of the input *)
Definition type_layout (t : log_event_type) : bytes -> Prop := fun w => fields [any 4; byte1 (event_type_code t)] w.
Definition length_layout (n : N) : bytes -> Prop := fun w => fields [any 9; is_le 4 n] w.

(** ** The first event *)
Definition start_layout (d : start_data) : bytes -> Prop := fun w =>
  utf8_valid (st_server_version d) = true /\
  fields [is_le 2 (st_binlog_version d); padded 50 (st_server_version d); is_le 4 (st_create_timestamp d)] w.
(** a table of lengths, the 15th of which is 57 more than the table is long; then the kind of checksum,
    which may be missing *)
Definition fde_layout (d : fde_data) (w : bytes) : Prop :=
  exists tail own,
    fields [start_layout (mk_start (fde_binlog_version d) (fde_server_version d) (fde_create_timestamp d));
            byte1 (fde_header_length d); exactly (fde_post_header_lengths d); exactly tail] w /\
    nth_error (fde_post_header_lengths d ++ tail) 14 = Some own /\
    b2n own = 57 + N.of_nat (length (fde_post_header_lengths d)) /\
    ((tail = [] /\ fde_checksum_flag d = 0) \/ exists b more, tail = b :: more /\ fde_checksum_flag d = b2n b).
(** the magic number; the version is told by the first event, which is not consumed *)
Definition version_of (h : event_header) (v : binlog_version) : Prop :=
  match v with
  | V1 => h_type h = EtStartEventV3 /\ h_event_len h < 75
  | V3 => h_type h = EtStartEventV3 /\ 75 <= h_event_len h
  | V4 => h_type h = EtFormatDescription
  end.
Definition tells_version (p : parser binlog_version) : Prop := forall bs v rest,
  p bs = (Ok v, rest) <-> bs = [xfe; x62; x69; x6e] ++ rest /\ exists h w more, rest = w ++ more /\ header_layout h w /\ version_of h v.

(** ** Whole events *)
(** header, data and, in a log with checksums, the checksum of both; together as long as the header says.
    Events of no use to the library give no event *)
Definition event_layout (crc : bytes -> N) (checksums validate : bool) (o : option event) (w : bytes) : Prop :=
  exists h hw data trailer, w = hw ++ data ++ trailer /\ header_layout h hw /\ N.of_nat (length w) = h_event_len h /\
    length trailer = (if checksums then 4%nat else 0%nat) /\
    (checksums && validate = true -> le_val trailer = crc (hw ++ data)) /\
    o = match event_kind_of (h_type h) with Some k => Some (mk_event k h data) | None => None end.
Definition skipped_layout (w : bytes) : Prop := exists h hw data, w = hw ++ data /\ header_layout h hw /\ N.of_nat (length w) = h_event_len h.

(** ** Bodies *)
Definition xid_layout (n : N) : bytes -> Prop := is_le 8 n.
Definition rand_layout (d : N * N) : bytes -> Prop := fun w => fields [is_le 8 (fst d); is_le 8 (snd d)] w.
Definition intvar_layout (d : N * N) : bytes -> Prop := fun w => fst d < 4 /\ fields [byte1 (fst d); is_le 8 (snd d)] w.
Definition incident_layout (d : incident) : bytes -> Prop := fun w =>
  in_msg_len d = N.of_nat (length (in_msg d)) /\ fields [is_le 2 (in_type d); byte1 (in_msg_len d); exactly (in_msg d)] w.
Definition rotate_layout (d : N * bytes) : bytes -> Prop := fun w => fields [is_le 8 (fst d); exactly (snd d)] w.
Definition user_var_layout (d : user_var) : bytes -> Prop := fun w =>
  uv_name_length d = N.of_nat (length (uv_name d)) /\
  fields [is_le 4 (uv_name_length d); exactly (uv_name d); byte1 (uv_is_null d); exactly (uv_value d)] w.
(** the flags may be missing *)
Definition user_var_value_layout (d : user_var_value) : bytes -> Prop := fun w =>
  uvv_flags d < 2 /\
  fields [byte1 (uvv_type d); is_le 4 (uvv_charset d); behind_length (is_le 4) (uvv_value d);
          fun t => (t = [] /\ uvv_flags d = 0) \/ fields [byte1 (uvv_flags d); leftover] t] w.
(** the logical clock is missing or cut off in logs of older servers *)
Definition gtid_log_layout (d : gtid_log) : bytes -> Prop := fun w =>
  fields [byte1 (gl_flags d); is_le 16 (gl_sid d); is_le 8 (gl_gno d);
          fun t => ((length t < 17)%nat /\ gl_ts_type d = 0 /\ gl_last_committed d = 0 /\ gl_seq_num d = 0) \/
                   fields [byte1 (gl_ts_type d); is_le 8 (gl_last_committed d); is_le 8 (gl_seq_num d); leftover] t] w.
(** disjoint, not adjacent, not empty intervals in ascending order, each with the number behind its last *)
Fixpoint intervals_layout (last : N) (l : list (N * N)) : bytes -> Prop := fun w =>
  match l with
  | [] => w = []
  | (s, e) :: l => last < s /\ s <= e /\ fields [is_le 8 s; is_le 8 (e + 1); intervals_layout (e + 1) l] w
  end.
Definition gtid_range_layout (r : gtid_range) : bytes -> Prop := fun w =>
  16 * N.of_nat (length (gr_intervals r)) < 2 ^ 63 /\
  fields [is_le 16 (gr_sid r); is_le 8 (N.of_nat (length (gr_intervals r))); intervals_layout 0 (gr_intervals r)] w.
(** of several ranges of one source the last counts *)
Fixpoint last_of_each (l : list gtid_range) : list (N * gtid_range) :=
  match l with
  | [] => []
  | r :: l => if existsb (fun r' => gr_sid r' =? gr_sid r) l then last_of_each l else (gr_sid r, r) :: last_of_each l
  end.
Definition gtid_set_layout (m : list (N * gtid_range)) (w : bytes) : Prop :=
  exists l, m = last_of_each l /\ map_with_capacity (N.of_nat (length l)) = Ok tt /\
  fields (is_le 8 (N.of_nat (length l)) :: map gtid_range_layout l) w.

(** the names of the fields a load event loads, each behind its length and with its NUL *)
Definition lengths_sum (l : bytes) : N := fold_right (fun b n => b2n b + n) 0 l.
Definition load_layout (d : load_data) : bytes -> Prop := fun w =>
  (ld_num_fields d = N.of_nat (length (ld_field_name_lengths d)) /\
   N.of_nat (length (ld_field_names d)) = lengths_sum (ld_field_name_lengths d) + ld_num_fields d /\
   lengths_sum (ld_field_name_lengths d) + ld_num_fields d < 2 ^ 32) /\
  fields [is_le 4 (ld_slave_proxy_id d); is_le 4 (ld_exec_time d); is_le 4 (ld_skip_lines d); byte1 (ld_table_name_len d);
          byte1 (ld_schema_len d); is_le 4 (ld_num_fields d); byte1 (ld_field_term d); byte1 (ld_enclosed_by d);
          byte1 (ld_line_term d); byte1 (ld_line_start d); byte1 (ld_escaped_by d); byte1 (ld_opt_flags d); byte1 (ld_empty_flags d);
          exactly (ld_field_name_lengths d); exactly (ld_field_names d);
          padded (ld_table_name_len d + 1) (ld_table_name d); padded (ld_schema_len d + 1) (ld_schema_name d);
          padded_rest (ld_file_name d)] w.
Definition new_load_layout (d : new_load_data) : bytes -> Prop := fun w =>
  (nl_num_fields d = N.of_nat (length (nl_field_name_lengths d)) /\
   N.of_nat (length (nl_field_names d)) = lengths_sum (nl_field_name_lengths d) + nl_num_fields d /\
   lengths_sum (nl_field_name_lengths d) + nl_num_fields d < 2 ^ 32 /\
   N.of_nat (length (nl_field_term d)) = nl_field_term_len d /\ N.of_nat (length (nl_enclosed_by d)) = nl_enclosed_by_len d /\
   N.of_nat (length (nl_line_term d)) = nl_line_term_len d /\ N.of_nat (length (nl_line_start d)) = nl_line_start_len d /\
   N.of_nat (length (nl_escaped_by d)) = nl_escaped_by_len d) /\
  fields [is_le 4 (nl_slave_proxy_id d); is_le 4 (nl_exec_time d); is_le 4 (nl_skip_lines d); byte1 (nl_table_name_len d);
          byte1 (nl_schema_len d); is_le 4 (nl_num_fields d); byte1 (nl_field_term_len d); exactly (nl_field_term d);
          byte1 (nl_enclosed_by_len d); exactly (nl_enclosed_by d); byte1 (nl_line_term_len d); exactly (nl_line_term d);
          byte1 (nl_line_start_len d); exactly (nl_line_start d); byte1 (nl_escaped_by_len d); exactly (nl_escaped_by d);
          byte1 (nl_opt_flags d); exactly (nl_field_name_lengths d); exactly (nl_field_names d);
          padded (nl_table_name_len d + 1) (nl_table_name d); padded (nl_schema_len d + 1) (nl_schema_name d);
          padded_rest (nl_file_name d)] w.
(** a block of a file: up to a NUL; to the end *)
Definition block_layout (d : N * bytes) : bytes -> Prop := fun w => fields [is_le 4 (fst d); padded_rest (snd d)] w.
Definition whole_block_layout (d : N * bytes) : bytes -> Prop := fun w => fields [is_le 4 (fst d); exactly (snd d)] w.
Definition execute_load_query_layout (d : execute_load_query) : bytes -> Prop := fun w =>
  fields [is_le 4 (elq_slave_proxy_id d); is_le 4 (elq_execution_time d); byte1 (elq_schema_length d); is_le 2 (elq_error_code d);
          is_le 2 (elq_status_vars_length d); is_le 4 (elq_file_id d); is_le 4 (elq_start_pos d); is_le 4 (elq_end_pos d);
          byte1 (elq_dup_handling_flags d); exactly (elq_payload d)] w.
Definition query_layout (d : query_data) : bytes -> Prop := fun w =>
  (N.of_nat (length (q_status_vars d)) = q_status_vars_len d /\ N.of_nat (length (q_schema d)) = q_schema_len d) /\
  fields [is_le 4 (q_slave_proxy_id d); is_le 4 (q_exec_time d); byte1 (q_schema_len d); is_le 2 (q_error_code d);
          is_le 2 (q_status_vars_len d); exactly (q_status_vars d); exactly (q_schema d); any 1; exactly (q_query d)] w.
Definition status_var_layout (v : status_var) : bytes -> Prop := fun w =>
  match v with
  | SvFlags2 n => fields [exactly [x00]; is_le 4 n] w
  | SvSqlMode n => fields [exactly [x01]; is_le 8 n] w
  | SvCatalog s => fields [exactly [x02]; behind_length byte1 s; any 1] w
  | SvAutoIncrement inc offset => fields [exactly [x03]; is_le 2 inc; is_le 2 offset] w
  | SvCharset client conn server => fields [exactly [x04]; is_le 2 client; is_le 2 conn; is_le 2 server] w
  | SvTimeZone s => fields [exactly [x05]; behind_length byte1 s] w
  | SvCatalogNz s => fields [exactly [x06]; behind_length byte1 s] w
  | SvLcTimeNames n => fields [exactly [x07]; is_le 2 n] w
  | SvCharsetDatabase n => fields [exactly [x08]; is_le 2 n] w
  | SvTableMapForUpdate n => fields [exactly [x09]; is_le 8 n] w
  | SvMasterDataWritten n => fields [exactly [x0a]; is_le 4 n] w
  | SvInvokers username hostname => fields [exactly [x0b]; behind_length byte1 username; behind_length byte1 hostname] w
  | SvUpdatedDbNames names => fields (exactly [x0c] :: byte1 (N.of_nat (length names)) :: map cstring names) w
  | SvMicroSeconds n => fields [exactly [x0d]; is_le 3 n] w
  end.
Definition status_vars_layout (vs : list status_var) : bytes -> Prop := fun w => fields (map status_var_layout vs) w.
Definition table_map_layout (d : table_map_data) : bytes -> Prop := fun w =>
  fields [is_le 6 (tmd_table_id d); is_le 2 (tmd_flags d); exactly (tmd_payload d)] w.
(** one byte of type per column, a bit of nullability per column *)
Definition raw_table_map_layout (d : raw_table_map) : bytes -> Prop := fun w =>
  (rtm_col_cnt d = N.of_nat (length (rtm_col_defs d)) /\ N.of_nat (length (rtm_null_bitmap d)) = (rtm_col_cnt d + 7) / 8 /\
   rtm_col_cnt d + 7 < 2 ^ 64) /\
  fields [behind_length byte1 (rtm_schema_name d); any 1; behind_length byte1 (rtm_table_name d); any 1;
          lenenc_any (rtm_col_cnt d); exactly (rtm_col_defs d); lstring (rtm_col_meta_defs d); exactly (rtm_null_bitmap d)] w.
Definition rows_v1_layout (d : rows_data_v1) : bytes -> Prop := fun w =>
  fields [is_le 6 (rd1_table_id d); is_le 2 (rd1_flags d); exactly (rd1_payload d)] w.
Definition rows_v2_layout (d : rows_data_v2) : bytes -> Prop := fun w =>
  fields [is_le 6 (rd2_table_id d); is_le 2 (rd2_flags d); is_le 2 (rd2_extra_data_len d); exactly (rd2_payload d)] w.
