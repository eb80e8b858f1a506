(** * Model of mybin-core/src/binlog/{table_map,rows_v1,rows_v2}.rs *)
From Verif Require Import Model.Base Model.BytesParser Model.LenEnc Model.Utf8 Model.Bitmap Model.Cmd Model.Col
  Model.Row Model.EventBody.
Open Scope N_scope.

(** ** table_map.rs *)
(** table_map.rs:14-22: (table_id, flags, payload); the same fields as the v1 row events *)
Record table_map_data := mk_tmd { tmd_table_id : N; tmd_flags : N; tmd_payload : bytes }.
(** table_map.rs:24-35 *)
Definition read_table_map_data : parser table_map_data :=
  table_id <- read_le_u48 ;;
  flags <- read_le_u16 ;;
  payload <- read_rest ;;
  pret (mk_tmd table_id flags payload).
(** table_map.rs:54-61 *)
Record raw_table_map := mk_rtm {
  rtm_schema_name : bytes; rtm_table_name : bytes; rtm_col_cnt : N; rtm_col_defs : bytes;
  rtm_col_meta_defs : bytes; rtm_null_bitmap : bytes }.
(** table_map.rs:64-97 *)
Definition read_raw_table_map : parser raw_table_map :=
  schema_name_len <- read_u8 ;;
  schema_name <- read_len schema_name_len ;;
  read_len 1 ;;;
  table_name_len <- read_u8 ;;
  table_name <- read_len table_name_len ;;
  read_len 1 ;;;
  col_cnt <- read_len_enc_int ;;
  col_cnt <- match lei_to_u64 col_cnt with Some n => pret n | None => pfail EConstraint end ;;
  col_defs <- read_len col_cnt ;;
  col_meta_defs_len <- read_len_enc_int ;;
  col_meta_defs_len <- match lei_to_u64 col_meta_defs_len with Some n => pret n | None => pfail EConstraint end ;;
  col_meta_defs <- read_len col_meta_defs_len ;;
  sum <- plift (cadd 64 col_cnt 7) ;;
  let bitmap_len := sum / 8 in
  null_bitmap <- read_len bitmap_len ;;
  pret (mk_rtm schema_name table_name col_cnt col_defs col_meta_defs null_bitmap).
(** table_map.rs:100-105 *)
Record table_map := mk_table_map {
  tm_schema_name : bytes; tm_table_name : bytes; tm_col_metas : list column_meta; tm_null_bitmap : bytes }.
(** table_map.rs:107-125 *)
Definition table_map_of_raw (raw : raw_table_map) : res table_map :=
  rbind (from_utf8 (rtm_schema_name raw)) (fun schema_name =>
  rbind (from_utf8 (rtm_table_name raw)) (fun table_name =>
  rbind (fst (read_column_metas (rtm_col_cnt raw) (rtm_col_defs raw) (rtm_col_meta_defs raw))) (fun col_metas =>
  Ok (mk_table_map schema_name table_name col_metas (rtm_null_bitmap raw))))).
(** table_map.rs:38-50: both functions (one works on a clone of the payload) *)
Definition table_map_of (d : table_map_data) : res table_map :=
  rbind (fst (read_raw_table_map (tmd_payload d))) table_map_of_raw.

(** ** rows_v1.rs *)
(** rows_v1.rs:12-18, 34-40, 57-63 *)
Record rows_data_v1 := mk_rd1 { rd1_table_id : N; rd1_flags : N; rd1_payload : bytes }.
(** rows_v1.rs:20-31 *)
Definition read_write_rows_v1 : parser rows_data_v1 :=
  table_id <- read_le_u48 ;;
  flags <- read_le_u16 ;;
  payload <- read_rest ;;
  pret (mk_rd1 table_id flags payload).
(** rows_v1.rs:43-52 *)
Definition read_update_rows_v1 : parser rows_data_v1 :=
  wrd <- read_write_rows_v1 ;; pret (mk_rd1 (rd1_table_id wrd) (rd1_flags wrd) (rd1_payload wrd)).
(** rows_v1.rs:64-73 *)
Definition read_delete_rows_v1 : parser rows_data_v1 :=
  wrd <- read_write_rows_v1 ;; pret (mk_rd1 (rd1_table_id wrd) (rd1_flags wrd) (rd1_payload wrd)).

(** ** rows_v2.rs *)
(** rows_v2.rs:16-23, 56-63, 93-100 *)
Record rows_data_v2 := mk_rd2 { rd2_table_id : N; rd2_flags : N; rd2_extra_data_len : N; rd2_payload : bytes }.
(** rows_v2.rs:39-52 *)
Definition read_write_rows_v2 : parser rows_data_v2 :=
  table_id <- read_le_u48 ;;
  flags <- read_le_u16 ;;
  extra_data_len <- read_le_u16 ;;
  payload <- read_rest ;;
  pret (mk_rd2 table_id flags extra_data_len payload).
(** rows_v2.rs:79-89 *)
Definition read_update_rows_v2 : parser rows_data_v2 :=
  wrd <- read_write_rows_v2 ;;
  pret (mk_rd2 (rd2_table_id wrd) (rd2_flags wrd) (rd2_extra_data_len wrd) (rd2_payload wrd)).
(** rows_v2.rs:116-126 *)
Definition read_delete_rows_v2 : parser rows_data_v2 :=
  wrd <- read_write_rows_v2 ;;
  pret (mk_rd2 (rd2_table_id wrd) (rd2_flags wrd) (rd2_extra_data_len wrd) (rd2_payload wrd)).

(** rows_v2.rs:152-155: how many of the first [n_cols] bits are set *)
Definition count_present (n_cols : N) (bitmap : bytes) : res nat :=
  rmap (fun l => length (filter (fun b => b) (firstn (N.to_nat n_cols) l))) (bm_to_iter bitmap 0).
(** rows_v2.rs:164-166: the first set bit from [j] on.  Beyond the last byte [bm_index] panics, so the
    number of bits is enough fuel. *)
Fixpoint next_set (fuel : nat) (bitmap : bytes) (j : nat) : res nat :=
  rbind (bm_index bitmap j) (fun b =>
    if (b : bool) then Ok j else match fuel with O => Loop | S fuel => next_set fuel bitmap (S j) end).
(** rows_v2.rs:161-173 (also 226-238, 245-257): clear the bits of the NULL columns *)
Fixpoint mark_nulls (n i j : nat) (null_bitmap col_bitmap : bytes) : res bytes :=
  match n with
  | O => Ok col_bitmap
  | S n =>
      rbind (next_set (8 * length col_bitmap) col_bitmap j) (fun j =>
      rbind (bm_index null_bitmap i) (fun null =>
      rbind (bm_mark col_bitmap j (negb null)) (fun col_bitmap =>
      mark_nulls n (S i) (S j) null_bitmap col_bitmap)))
  end.
(** rows_v2.rs:159-174: one row image *)
Definition read_row_image (n_cols : N) (present_bitmap : bytes) (present_cols : nat) (metas : list column_meta)
  : parser (list binlog_value) :=
  null_bitmap <- read_len (N.shiftr (N.of_nat present_cols + 7) 3) ;;
  col_bitmap <- plift (mark_nulls present_cols 0 0 null_bitmap present_bitmap) ;;
  read_log_row n_cols col_bitmap metas.
(** rows_v2.rs:129-135 *)
Record rows_v2 := mk_rows { r_extra_data : bytes; r_n_cols : N; r_present_bitmap : bytes; r_rows : list (list binlog_value) }.
(** rows_v2.rs:144-149: the number of columns and of bytes of a bitmap of them *)
Definition read_n_cols : parser (N * N) :=
  n_cols <- read_len_enc_int ;;
  n_cols <- match lei_to_u32 n_cols with Some n => pret n | None => pfail EConstraint end ;;
  sum <- plift (cadd 32 n_cols 7) ;;
  pret (n_cols, N.shiftr sum 3).
(** rows_v2.rs:138-183 *)
Definition read_rows_v2 (extra_data_len : N) (metas : list column_meta) : parser rows_v2 :=
  len <- plift (csub extra_data_len 2) ;;
  extra_data <- read_len len ;;
  ' (n_cols, bitmap_len) <- read_n_cols ;;
  present_bitmap <- read_len bitmap_len ;;
  present_cols <- plift (count_present n_cols present_bitmap) ;;
  rows <- while_remaining (read_row_image n_cols present_bitmap present_cols metas) ;;
  pret (mk_rows extra_data n_cols present_bitmap rows).
(** rows_v2.rs:187-193 *)
Record update_rows_v2 := mk_update_rows {
  u_extra_data : bytes; u_n_cols : N; u_before_present_bitmap : bytes; u_after_present_bitmap : bytes;
  u_rows : list (list binlog_value * list binlog_value) }.
(** rows_v2.rs:196-269 *)
Definition read_update_rows (extra_data_len : N) (metas : list column_meta) : parser update_rows_v2 :=
  len <- plift (csub extra_data_len 2) ;;
  extra_data <- read_len len ;;
  ' (n_cols, bitmap_len) <- read_n_cols ;;
  before_present_bitmap <- read_len bitmap_len ;;
  after_present_bitmap <- read_len bitmap_len ;;
  before_present_cols <- plift (count_present n_cols before_present_bitmap) ;;
  after_present_cols <- plift (count_present n_cols after_present_bitmap) ;;
  rows <- while_remaining (
    before_row <- read_row_image n_cols before_present_bitmap before_present_cols metas ;;
    after_row <- read_row_image n_cols after_present_bitmap after_present_cols metas ;;
    pret (before_row, after_row)) ;;
  pret (mk_update_rows extra_data n_cols before_present_bitmap after_present_bitmap rows).
(** rows_v2.rs:26-36, 103-113 *)
Definition rows_of (d : rows_data_v2) (metas : list column_meta) : res rows_v2 :=
  fst (read_rows_v2 (rd2_extra_data_len d) metas (rd2_payload d)).
(** rows_v2.rs:66-76 *)
Definition update_rows_of (d : rows_data_v2) (metas : list column_meta) : res update_rows_v2 :=
  fst (read_update_rows (rd2_extra_data_len d) metas (rd2_payload d)).
