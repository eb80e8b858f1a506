(** * C69: decoding makes nothing out of thin air

    The strings and the list elements of whatever is decoded fit in the bytes it was decoded from: a
    message of [n] bytes cannot make the client hold more than [n] bytes of strings or more than [n]
    elements.  The one exception is the cells of a rows event: columns that are not present are decoded
    to NULL cells of which [8 n] are announced by [n] bytes, in every row again. *)
From Coq Require Import List NArith ZArith Lia Arith.
From Verif Require Import Model.Base Model.BytesParser Model.LenEnc Model.Decimal Model.Cmd Model.Packet Model.Col Model.Row Model.Event
  Model.EventBody Model.Rows Model.Stmt Model.StmtDefs Model.Session Spec.Sizes Proofs.SizeProofs Proofs.RowSizeProofs.
Import ListNotations.
Local Open Scope nat_scope.

(** the messages of a session *)
Theorem C69_messages : forall cap sql field_list n_defs,
  within packet_size read_packet /\
  within handshake_size read_initial_handshake /\
  within handshake_message_size (read_handshake_message cap) /\
  within ok_size (read_ok_packet cap) /\
  within err_size (read_err_packet cap sql) /\
  within response_size (read_com_response cap) /\
  within change_user_size (read_change_user_response cap) /\
  within field_list_size (read_field_list_response cap sql) /\
  within column_def_size (read_column_def field_list) /\
  within (counted column_def_size) (read_prepare_defs n_defs).
Proof.
  intros. repeat split; [apply w_packet|apply w_handshake|apply w_handshake_message|apply w_ok|apply w_err|apply w_response|
    apply w_change_user|apply w_field_list|apply w_column_def|apply w_prepare_defs].
Qed.
Print Assumptions C69_messages.

(** rows of a result set.  In the text protocol every cell takes a byte of its own; in the binary
    protocol a NULL cell takes a bit. *)
Theorem C69_text_rows : forall col_cnt, within (counted opt_size) (read_text_row col_cnt).
Proof. exact w_text_row. Qed.
Print Assumptions C69_text_rows.
Theorem C69_binary_rows : forall cts,
  within (contents value_size) (read_binary_row cts) /\
  forall input row rest, read_binary_row cts input = (Ok row, rest) -> length row <= 8 * length input.
Proof.
  intros cts. split; [|intros input row rest; apply binary_row_cells]. eapply w_le; [|apply w_binary_row]. intros; cbv beta; lia.
Qed.
Print Assumptions C69_binary_rows.

(** the bodies of the events of a log, and what is decoded from them later *)
Theorem C69_events :
  within fde_size read_fde /\
  within query_size read_query_data /\
  within (counted status_var_size) read_status_vars /\
  within (fun r => length (snd r)) read_rotate /\
  within (fun i => length (in_msg i)) read_incident /\
  within user_var_size read_user_var /\
  within (fun v => length (uvv_value v)) read_user_var_value /\
  within load_size read_load /\
  within new_load_size read_new_load /\
  within (fun r => length (snd r)) read_create_file /\
  within (fun r => length (snd r)) read_append_block /\
  within (fun r => length (snd r)) read_begin_load_query /\
  within (fun r => length (elq_payload r)) read_execute_load_query /\
  within gtid_set_size read_gtid_set /\
  within raw_table_map_size read_raw_table_map /\
  forall d t, table_map_of d = Ok t -> table_map_size t <= length (tmd_payload d).
Proof.
  repeat split; [apply w_fde|apply w_query|apply w_status_vars|apply w_rotate|apply w_incident|apply w_user_var|apply w_user_var_value|
    apply w_load|apply w_new_load|apply w_create_file|apply w_append_block|apply w_begin_load|apply w_execute_load|apply w_gtid_set|
    apply w_raw_table_map|apply table_map_within].
Qed.
Print Assumptions C69_events.

(** the requests a replica sends *)
Theorem C69_requests : within dump_size read_binlog_dump /\ within dump_gtid_size read_binlog_dump_gtid.
Proof. split; [apply w_dump|apply w_dump_gtid]. Qed.
Print Assumptions C69_requests.

(** the rows of an event: their number and the strings in them *)
Theorem C69_rows : forall extra_data_len metas,
  within rows_size (read_rows_v2 extra_data_len metas) /\ within update_rows_size (read_update_rows extra_data_len metas).
Proof. intros. split; [apply w_rows|apply w_update_rows]. Qed.
Print Assumptions C69_rows.

(** their cells: as many in every row as columns are announced, at most eight for each byte of the
    bitmap, and so at most quadratic in the size of the event ... *)
Theorem C69_cells : forall extra_data_len metas input rows rest,
  read_rows_v2 extra_data_len metas input = (Ok rows, rest) ->
  cells (r_rows rows) = length (r_rows rows) * N.to_nat (r_n_cols rows) /\
  cells (r_rows rows) <= 8 * length (r_rows rows) * length (r_present_bitmap rows) /\
  cells (r_rows rows) <= 2 * (length input * length input).
Proof. exact rows_cells. Qed.
Print Assumptions C69_cells.
Theorem C69_update_cells : forall extra_data_len metas input rows rest,
  read_update_rows extra_data_len metas input = (Ok rows, rest) ->
  Forall (fun p => length (fst p) = N.to_nat (u_n_cols rows) /\ length (snd p) = N.to_nat (u_n_cols rows)) (u_rows rows) /\
  N.to_nat (u_n_cols rows) <= 8 * length (u_before_present_bitmap rows) /\
  N.to_nat (u_n_cols rows) <= 8 * length (u_after_present_bitmap rows).
Proof. exact update_shape. Qed.
Print Assumptions C69_update_cells.

(** ... but not linear in it: whatever the factor [c], there is an event of only [2 c + 11] bytes whose
    cells are more than [c] times as many as its bytes *)
Theorem C69_cells_refuted : forall c metas, (N.of_nat c < 2 ^ 28)%N ->
  exists input rows, length input = 2 * c + 11 /\ read_rows_v2 2 metas input = (Ok rows, []) /\
  c * length input < cells (r_rows rows).
Proof.
  intros c metas H. change (2 ^ 28)%N with 268435456%N in H. exists (wide (S c) (S c)). eexists.
  split; [rewrite wide_length; lia|]. split; [apply wide_read; [lia|change (2 ^ 32)%N with 4294967296%N; lia]|].
  rewrite wide_length by lia. cbn [r_rows]. rewrite (cells_all _ (8 * S c)).
  - rewrite repeat_length. nia.
  - apply Forall_forall. intros row Hr. apply repeat_spec in Hr. subst row. apply repeat_length.
Qed.
Print Assumptions C69_cells_refuted.

(** ** Examples *)
Definition is_ok {A} (r : res A * bytes) : option (A * bytes) := match r with (Ok a, rest) => Some (a, rest) | _ => None end.
(** a text row of three cells out of ten bytes, three of which are left *)
Example C69_example_text :
  option_map (fun '(row, rest) => (counted opt_size row, length rest))
    (is_ok (read_text_row 3 [x03; x61; x62; x63; xfb; x01; x64; x00; x07; x08])) = Some (7, 3).
Proof. reflexivity. Qed.
(** a GTID set of one identifier with two intervals: three elements out of sixty-four bytes *)
Example C69_example_gtids :
  option_map (fun '(set, rest) => (gtid_set_size set, length rest))
    (is_ok (read_gtid_set (to_le_bytes 8 1 ++ to_le_bytes 16 7 ++ to_le_bytes 8 2 ++ to_le_bytes 8 1 ++ to_le_bytes 8 5 ++
       to_le_bytes 8 9 ++ to_le_bytes 8 12))) = Some (3, 0).
Proof. vm_compute. reflexivity. Qed.
(** two rows, of a string and an absent column: five elements and letters out of eight bytes *)
Example C69_example_rows :
  option_map (fun '(rows, rest) => (rows_size rows, cells (r_rows rows), length rest))
    (is_ok (read_rows_v2 2 [MVarString 10; MTiny] [x02; x01; xfe; x02; x61; x62; xfe; x00])) = Some (5, 4, 0).
Proof. vm_compute. reflexivity. Qed.
(** an event of 211 bytes whose rows hold 81608 cells *)
Example C69_example_wide :
  option_map (fun '(rows, rest) => (N.of_nat (cells (r_rows rows)), length rest)) (is_ok (read_rows_v2 2 [MTiny] (wide 101 101))) = Some (81608%N, 0).
Proof. vm_compute. reflexivity. Qed.
