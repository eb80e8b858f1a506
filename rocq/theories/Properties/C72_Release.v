(** C72: a release build, which has no overflow checks and no debug assertions, does what a checked build does
    wherever that one is not stopped by a check; and nothing else stops it there *)
From Coq Require Import List NArith ZArith Arith Bool Lia.
From Verif Require Import Model.Base Model.BytesParser Model.Utf8 Model.Flags Model.Packet Model.Cmd Model.Time Model.Decimal Model.Col
  Model.Row Model.Conn Model.Auth Model.Stmt Model.Extract Model.Session Model.Event Model.EventBody Model.Rows Model.Stream
  Model.Transform Model.MyBinlog Model.Tools Model.Release
  Spec.Decoders Spec.Catalogue Spec.Programs Spec.ReleaseSpec
  Proofs.BaseLemmas Proofs.BytesParserProofs Proofs.PacketProofs Proofs.CodecProofs Proofs.LocalProofs Proofs.TotalProofs Proofs.PanicProofs Proofs.EventPanicProofs
  Proofs.ReleaseProofs Proofs.ReleaseTotal Proofs.ReleasePrograms.
Import ListNotations.
Open Scope N_scope.

(** ** Programs *)
(** any client program: results, what is sent and what is left of the input agree *)
Theorem C72_programs : forall sha1 sha256 crc A (checked release : io A), builds sha1 sha256 crc checked release ->
  forall c, same_without_checks (checked c) (release c).
Proof. intros sha1 sha256 crc A m n H c. exact (iagree_same _ _ c (builds_ok sha1 sha256 crc m n H)). Qed.
Print Assumptions C72_programs.
(** the release build of it ends with a value or an error, waits, or panics for a reason that both builds have *)
Theorem C72_programs_go_on : forall sha1 sha256 crc A (checked release : io A), builds sha1 sha256 crc checked release ->
  forall c, ~ stopped_by_checks (fst (release c)).
Proof. intros sha1 sha256 crc A m n H c. exact (builds_on sha1 sha256 crc m n H c). Qed.
Print Assumptions C72_programs_go_on.

(** the subcommands of mybinlog and the watching example: results, output and both connections *)
Theorem C72_list : forall sha1 sha256 user pw s,
  same_without_checks (exec_list sha1 sha256 true user pw s) (exec_list_rel sha1 sha256 user pw s) /\
  ~ stopped_by_checks (fst (exec_list_rel sha1 sha256 user pw s)).
Proof.
  intros. split; [|apply on_exec_list].
  intros N. destruct (exec_list_rel_ok sha1 sha256 user pw s) as [S|E]; [contradiction|exact E].
Qed.
Print Assumptions C72_list.
Theorem C72_dml : forall sha1 sha256 fmt_f32 fmt_f64 crc compile uuid id user pw file until df tf block limit s1 s2,
  let checked := exec_dml sha1 sha256 fmt_f32 fmt_f64 crc true compile uuid id user pw file until df tf block limit s1 s2 in
  let release := exec_dml_rel sha1 sha256 fmt_f32 fmt_f64 crc compile uuid id user pw file until df tf block limit s1 s2 in
  (~ stopped_by_checks (fst (fst (fst checked))) -> release = checked) /\ ~ stopped_by_checks (fst (fst (fst release))).
Proof.
  intros. split.
  - intros N. destruct (exec_dml_rel_ok sha1 sha256 fmt_f32 fmt_f64 crc compile uuid id user pw file until df tf block limit s1 s2) as [S|E];
      [contradiction|exact E].
  - apply on_exec_dml.
Qed.
Print Assumptions C72_dml.
Theorem C72_watch : forall sha1 sha256 crc uuid id conf s,
  let checked := watch sha1 sha256 crc true uuid id conf s in
  let release := watch_rel sha1 sha256 crc uuid id conf s in
  (~ stopped_by_checks (fst (fst (fst checked))) -> release = checked) /\ ~ stopped_by_checks (fst (fst (fst release))).
Proof.
  intros. split.
  - intros N. destruct (watch_rel_ok sha1 sha256 crc uuid id conf s) as [S|E]; [contradiction|exact E].
  - apply on_watch.
Qed.
Print Assumptions C72_watch.

(** ** Decoders *)
(** the same value or error, and the same rest of the input *)
Theorem C72_decoders : forall bs,
  same_without_checks (read_initial_handshake bs) (read_initial_handshake_rel bs) /\
  same_without_checks (from_binlog_file bs) (from_binlog_file_rel bs) /\
  same_without_checks (from_fde_bytes bs) (from_fde_bytes_rel bs) /\
  (forall crc pv validate, same_without_checks (parse_event crc pv validate bs) (parse_event_rel crc pv validate bs)) /\
  (forall pv, same_without_checks (skip_event pv bs) (skip_event_rel pv bs)) /\
  (forall crc pv, same_result (checksum_event crc pv bs) (checksum_event_rel crc pv bs)) /\
  same_without_checks (read_load bs) (read_load_rel bs) /\
  same_without_checks (read_new_load bs) (read_new_load_rel bs) /\
  (forall cts, same_without_checks (read_binary_row cts bs) (read_binary_row_rel cts bs)) /\
  (forall ct, same_without_checks (read_binary_value ct bs) (read_binary_value_rel ct bs)) /\
  (forall m, same_without_checks (read_binlog_value m bs) (read_binlog_value_rel m bs)) /\
  same_result (time_from_text bs) (time_from_text_rel bs).
Proof.
  intros bs. repeat match goal with |- _ /\ _ => split end; intros;
    first [apply pagree_same | apply agree_same];
    auto using read_initial_handshake_rel_ok, from_binlog_file_rel_ok, from_fde_bytes_rel_ok, parse_event_rel_ok, skip_event_rel_ok,
      checksum_event_rel_ok, read_load_rel_ok, read_new_load_rel_ok, read_binary_row_rel_ok, read_binary_value_rel_ok,
      read_binlog_value_rel_ok, time_from_text_rel_ok.
Qed.
Print Assumptions C72_decoders.
(** the bodies of table map and row events *)
Theorem C72_row_events : (forall d, same_result (table_map_of d) (table_map_of_rel d)) /\
  (forall d metas, same_result (rows_of d metas) (rows_of_rel d metas)) /\
  (forall d metas, same_result (update_rows_of d metas) (update_rows_of_rel d metas)).
Proof.
  split; [|split]; intros; apply agree_same; auto using table_map_of_rel_ok, rows_of_rel_ok, update_rows_of_rel_ok.
Qed.
Print Assumptions C72_row_events.
(** generated SQL and JSON *)
Theorem C72_texts : (forall fmt_f32 fmt_f64 q, same_result (sql_list fmt_f32 fmt_f64 q) (sql_list_rel fmt_f32 fmt_f64 q)) /\
  (forall widen db tbl r defs, same_result (json_from_insert widen db tbl r defs) (json_from_insert_rel widen db tbl r defs)) /\
  (forall widen db tbl r defs, same_result (json_from_delete widen db tbl r defs) (json_from_delete_rel widen db tbl r defs)) /\
  (forall widen db tbl u defs, same_result (json_from_update widen db tbl u defs) (json_from_update_rel widen db tbl u defs)).
Proof.
  split; [|split; [|split]]; intros; apply agree_same;
    auto using sql_list_rel_ok, json_from_insert_rel_ok, json_from_delete_rel_ok, json_from_update_rel_ok.
Qed.
Print Assumptions C72_texts.
(** none of them is stopped by a check in a release build *)
Theorem C72_decoders_go_on : forall bs,
  (forall crc pv validate, ~ stopped_by_checks (fst (parse_event_rel crc pv validate bs))) /\
  (forall crc pv, ~ stopped_by_checks (checksum_event_rel crc pv bs)) /\
  ~ stopped_by_checks (fst (from_binlog_file_rel bs)) /\ ~ stopped_by_checks (fst (from_fde_bytes_rel bs)) /\
  ~ stopped_by_checks (fst (read_load_rel bs)) /\ ~ stopped_by_checks (fst (read_new_load_rel bs)) /\
  (forall m, ~ stopped_by_checks (fst (read_binlog_value_rel m bs))) /\
  ~ stopped_by_checks (time_from_text_rel bs).
Proof.
  intros bs. repeat match goal with |- _ /\ _ => split end; intros;
    first [apply pon_parse_event | apply on_checksum_event | apply pon_binlog_file | apply pon_fde_bytes | apply pon_load
          | apply pon_new_load | apply pon_log_value | apply on_time_from_text].
Qed.
Print Assumptions C72_decoders_go_on.
Theorem C72_row_events_go_on : (forall d, ~ stopped_by_checks (table_map_of_rel d)) /\
  (forall d metas, ~ stopped_by_checks (rows_of_rel d metas)) /\
  (forall d metas, ~ stopped_by_checks (update_rows_of_rel d metas)) /\
  (forall fmt_f32 fmt_f64 q, ~ stopped_by_checks (sql_list_rel fmt_f32 fmt_f64 q)) /\
  (forall widen db tbl r defs, ~ stopped_by_checks (json_from_insert_rel widen db tbl r defs)) /\
  (forall widen db tbl r defs, ~ stopped_by_checks (json_from_delete_rel widen db tbl r defs)) /\
  (forall widen db tbl u defs, ~ stopped_by_checks (json_from_update_rel widen db tbl u defs)).
Proof.
  repeat match goal with |- _ /\ _ => split end; intros;
    first [apply on_table_map | apply on_rows | apply on_update_rows | apply on_sql_list | apply on_json_insert | apply on_json_delete
          | apply on_json_update].
Qed.
Print Assumptions C72_row_events_go_on.

(** ** What is left of the panics of C45 *)
(** a greeting, a binary value, a binary row and a skipped event: none at all *)
Theorem C72_greeting : forall bs, returns (fst (read_initial_handshake_rel bs)).
Proof. intros bs. revert bs. change (no_panic read_initial_handshake_rel). unfold read_initial_handshake_rel. pt. Qed.
Print Assumptions C72_greeting.
Theorem C72_binary_value : forall ct bs, returns (fst (read_binary_value_rel ct bs)).
Proof. exact binary_value_rel_returns. Qed.
Print Assumptions C72_binary_value.
Theorem C72_binary_row : forall cts bs, returns (fst (read_binary_row_rel cts bs)).
Proof. exact binary_row_rel_returns. Qed.
Print Assumptions C72_binary_row.
Theorem C72_skip : forall pv bs, returns (fst (skip_event_rel pv bs)).
Proof. exact skip_event_rel_returns. Qed.
Print Assumptions C72_skip.
(** Finding: an event panics exactly if its checksum is to be compared and it announces less than four bytes *)
Theorem C72_event : forall crc pv validate bs, panics_exactly (fst (parse_event_rel crc pv validate bs))
  (fun w => w = PIndex /\ p_checksum pv = true /\ validate = true /\ announced_length bs < 4 /\
            exists h rest, read_event_header bs = (Ok h, rest)).
Proof. exact parse_event_rel_exact. Qed.
Print Assumptions C72_event.
(** Finding: where a checked build panics at an event too short for its checksum, this one hands it out, the
    bytes of the checksum included *)
Theorem C72_short_event_refuted : forall crc pv bs h rest k, p_checksum pv = true -> read_event_header bs = (Ok h, rest) ->
  event_kind_of (h_type h) = Some k -> 19 <= h_event_len h < 23 -> h_event_len h - 19 <= N.of_nat (length rest) ->
  fst (parse_event crc pv false bs) = Panic PArith /\
  exists data more, rest = data ++ more /\ N.of_nat (length data) = h_event_len h - 19 /\
    parse_event_rel crc pv false bs = (Ok (Some (mk_event k h data)), more).
Proof. exact short_event. Qed.
Print Assumptions C72_short_event_refuted.
(** Finding: elsewhere the release build makes up a value where the checked build panics: a DATETIME of zeros in a
    row image, a DECIMAL whose last digits do not fit, the text of a TIME of -2^63 hours *)
Definition min_hours : bytes := map n2b [45; 57; 50; 50; 51; 51; 55; 50; 48; 51; 54; 56; 53; 52; 55; 55; 53; 56; 48; 56; 58; 48; 48; 58; 48; 48].
Theorem C72_wrapped_refuted :
  (fst (read_binlog_value (MDateTime 0) (repeat x00 5)) = Panic PArith /\
   fst (read_binlog_value_rel (MDateTime 0) (repeat x00 5)) = Ok (LDateTime (mk_dt 10082 6 0 0 0 0 0))) /\
  (fst (read_binlog_value (MNewDecimal 5 5) [xff; xff; xff]) = Panic PArith /\
   fst (read_binlog_value_rel (MNewDecimal 5 5) [xff; xff; xff]) = Ok (LNewDecimal (mk_dec 0 5 false [268425456]))) /\
  (time_from_text min_hours = Panic PArith /\ time_from_text_rel min_hours = Ok (mk_time true 0 0 0 0 0)).
Proof. repeat match goal with |- _ /\ _ => split end; vm_compute; reflexivity. Qed.
Print Assumptions C72_wrapped_refuted.

(** *** Cases *)
(** a program: a ping, then a query whose rows are collected; the server answers with two rows *)
Definition a_program (checks : bool) : io (list (list (option bytes)) * result_set) :=
  _ <~ conn_ping checks ;; rs <~ query_qry checks [x71] ;; call_rs (rs_all (next_row text_rows)) rs.
Example C72_program_case : forall sha1 sha256 crc, builds sha1 sha256 crc (a_program true) (a_program false).
Proof.
  intros. apply bd_bind; [apply bd_ping|]. intros _. apply bd_bind; [apply bd_qry|]. intros rs. apply bd_all. apply rb_text.
Qed.
Definition frame (nr : byte) (payload : bytes) : bytes := n2b (N.of_nat (length payload)) :: x00 :: x00 :: nr :: payload.
Definition a_column : bytes := [x03; x64; x65; x66; x00; x00; x00; x01; x63; x00; x0c; x21; x00; x00; x01; x00; x00; xfd; x00; x00; x00; x00; x00].
Definition a_server : conn := mk_conn [RData (frame x01 [x00; x00; x00; x02; x00; x00; x00] ++
  frame x01 [x01] ++ frame x02 a_column ++ frame x03 [x01; x61] ++ frame x04 [xfb] ++ frame x05 [xfe; x00; x00; x02; x00; x00; x00])] [] [] 0x01000200 2 0.
Example C72_program_run : exists rs, fst (a_program true a_server) = Ok ([[Some [x61]]; [None]], rs) /\
  ~ stopped_by_checks (fst (a_program true a_server)).
Proof. eexists. split; [vm_compute; reflexivity|]. vm_compute. intros [H|H]; discriminate. Qed.
(** a greeting with a seed of seven bytes is an error, not a panic *)
Definition a_short_greeting : bytes := x0a :: [] ++ x00 :: repeat xff 20 ++ [x07] ++ repeat x00 10.
Example C72_greeting_case : fst (read_initial_handshake a_short_greeting) = Panic PArith /\
  fst (read_initial_handshake_rel a_short_greeting) = Err (EIncomplete (Some 255)).
Proof. split; vm_compute; reflexivity. Qed.
(** an event with a checksum: read alike by both builds *)
Definition an_xid : bytes := [x00; x00; x00; x00; x10; x01; x00; x00; x00; x1f; x00; x00; x00; x00; x00; x00; x00; x00; x00] ++
  [x05; x00; x00; x00; x00; x00; x00; x00] ++ [x0d; x0c; x0b; x0a].
Example C72_event_case : exists e, parse_event (fun _ => 0x0a0b0c0d) (mk_parser [] true) true an_xid = (Ok (Some e), []) /\
  parse_event_rel (fun _ => 0x0a0b0c0d) (mk_parser [] true) true an_xid = (Ok (Some e), []) /\
  ev_data e = [x05; x00; x00; x00; x00; x00; x00; x00].
Proof. eexists. split; [vm_compute; reflexivity|]. split; vm_compute; reflexivity. Qed.
(** the same event announcing 22 bytes: the hypotheses of [C72_short_event_refuted]; announcing 3: those of the panic *)
Definition a_short_xid (n : byte) : bytes := [x00; x00; x00; x00; x10; x01; x00; x00; x00; n; x00; x00; x00; x00; x00; x00; x00; x00; x00] ++ [x01; x02; x03; x04].
Example C72_short_event_case : exists h rest, read_event_header (a_short_xid x16) = (Ok h, rest) /\
  event_kind_of (h_type h) = Some KXid /\ 19 <= h_event_len h < 23 /\ h_event_len h - 19 <= N.of_nat (length rest).
Proof. do 2 eexists. split; [vm_compute; reflexivity|]. split; [reflexivity|]. cbn. lia. Qed.
Example C72_event_panic_case : announced_length (a_short_xid x03) < 4 /\
  fst (parse_event_rel (fun _ => 0) (mk_parser [] true) true (a_short_xid x03)) = Panic PIndex.
Proof. split; vm_compute; reflexivity. Qed.
