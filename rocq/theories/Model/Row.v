(** * Model of mybin-core/src/row.rs *)
From Verif Require Import Model.Base Model.BytesParser Model.LenEnc Model.Bitmap Model.Cmd Model.Col.
Open Scope N_scope.

(** row.rs:13-30; an [Option<Bytes>] takes 32 bytes *)
Definition read_text_value : parser (option bytes) :=
  s <- read_len_enc_str ;;
  match s with
  | LesNull => pret None
  | LesBytes bs => pret (Some bs)
  | LesErr => pfail EConstraint
  end.
Definition read_text_row (col_cnt : N) : parser (list (option bytes)) :=
  plift (with_capacity 32 col_cnt) ;;; prepeat (N.to_nat col_cnt) read_text_value.

(** row.rs:43-50: the zipped loop; the iterator is advanced once per column type *)
Fixpoint read_binary_cols (cts : list column_type) (bits : bytes) (idx : nat) : parser (list binary_value) :=
  match cts with
  | [] => pret []
  | ct :: cts =>
      o <- plift (bm_next bits idx) ;;
      match o with
      | None => pret []
      | Some null =>
          v <- (if (null : bool) then pret BNull else read_binary_value ct) ;;
          vs <- read_binary_cols cts bits (S idx) ;;
          pret (v :: vs)
      end
  end.
(** row.rs:36-54 *)
Definition read_binary_row (cts : list column_type) : parser (list binary_value) :=
  read_u8 ;;;
  let bitmap_len := N.shiftr (N.of_nat (length cts) + 7 + 2) 3 in
  null_bitmap <- read_len bitmap_len ;;
  read_binary_cols cts null_bitmap 2.

(** row.rs:66-75 *)
Fixpoint read_log_cols (n i : nat) (col_bm : bytes) (metas : list column_meta) : parser (list binlog_value) :=
  match n with
  | O => pret []
  | S n =>
      present <- plift (bm_index col_bm i) ;;
      v <- (if (present : bool)
            then match nth_error metas i with
                 | Some m => read_binlog_value m
                 | None => ppanic PIndex
                 end
            else pret LNull) ;;
      vs <- read_log_cols n (S i) col_bm metas ;;
      pret (v :: vs)
  end.
(** row.rs:59-77; a [BinlogColumnValue] takes 40 bytes *)
Definition read_log_row (n_cols : N) (col_bm : bytes) (metas : list column_meta) : parser (list binlog_value) :=
  plift (with_capacity 40 n_cols) ;;; read_log_cols (N.to_nat n_cols) 0 col_bm metas.
